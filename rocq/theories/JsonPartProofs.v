(** * Proofs about parts of JSON documents *)

From Coq Require Import Strings.String Sorting.Permutation.
From Verif Require Import Base StrModel Utf8Model TypesModel MarshalModel MarshalSpec JsonModel JsonSpec WhiteSpec JsonDocSpec JsonDocProofs JsonCutSpec JsonCutProofs JsonRewriteSpec JsonSpaceSpec JsonSpaceProofs
  JsonPartSpec.
Local Open Scope list_scope.
Local Open Scope Z_scope.

Section Part.
Context (alnum : Z -> bool) (fl : floats) (white_not_alnum : forall c, In c white_space -> alnum c = false).

Let reads := reads alnum.
Let document := document alnum fl.
Let elements := elements alnum fl.
Let members := members alnum fl.

Definition edge (r : str) : Prop := r = [] \/ marked r.

Lemma edge_ends x r : edge r -> ends_before x r.
Proof. intros E. destruct x; cbn; auto; exact E. Qed.

Lemma reads_edge s x r : reads s x r -> x <> SEnd -> edge r -> exists p, s = p ++ r /\ forall r', edge r' -> reads (p ++ r') x r'.
Proof.
  intros R N E. destruct (reads_change alnum fl white_not_alnum _ _ _ R N (edge_ends x r E)) as (p & Hp & P). exists p. split; [exact Hp|].
  intros r' E'. apply P. now apply edge_ends.
Qed.

Lemma punct_change s c r : reads s (SPunct c) r -> exists p, s = p ++ r /\ forall r', reads (p ++ r') (SPunct c) r'.
Proof.
  intros R. destruct (reads_change alnum fl white_not_alnum _ _ _ R ltac:(discriminate) I) as (p & Hp & P). exists p. split; [exact Hp|]. intros r'. now apply P.
Qed.

Lemma text_change s x r : reads s (SText x) r -> exists p, s = p ++ r /\ forall r', reads (p ++ r') (SText x) r'.
Proof.
  intros R. destruct (reads_change alnum fl white_not_alnum _ _ _ R ltac:(discriminate) I) as (p & Hp & P). exists p. split; [exact Hp|]. intros r'. now apply P.
Qed.

Lemma punct_edge s c r : reads s (SPunct c) r -> edge s.
Proof. intros R. right. exact (punct_marked alnum _ _ _ R). Qed.

Lemma separated_change b s s0 : separated alnum b s s0 -> exists p, s = p ++ s0 /\ forall r', separated alnum b (p ++ r') r'.
Proof.
  intros S. destruct b; cbn in S |- *; [exists []; subst; auto|]. exact (punct_change _ _ _ S).
Qed.

Lemma separated_edge s s0 : separated alnum false s s0 -> edge s.
Proof. apply punct_edge. Qed.

Lemma document_change t s v r : document t s v r -> edge r -> exists p, s = p ++ r /\ forall r', edge r' -> document t (p ++ r') v r'.
Proof.
  intros D.
  apply (document_mind alnum fl
    (fun t s v r => edge r -> exists p, s = p ++ r /\ forall r', edge r' -> document t (p ++ r') v r')
    (fun b ts s vs r => edge r -> (b = false -> edge s) /\ exists p, s = p ++ r /\ forall r', edge r' -> elements b ts (p ++ r') vs r' /\ (b = false -> edge (p ++ r')))
    (fun b ms s r => edge r -> (b = false -> edge s) /\ exists p, s = p ++ r /\ forall r', edge r' -> members b ms (p ++ r') r' /\ (b = false -> edge (p ++ r')))); try exact D; clear D t s v r.
  - intros s r R E. destruct (reads_edge _ _ _ R ltac:(discriminate) E) as (p & Hp & P). exists p. split; [exact Hp|]. intros r' E'. apply dc_unit. now apply P.
  - intros s r R E. destruct (reads_edge _ _ _ R ltac:(discriminate) E) as (p & Hp & P). exists p. split; [exact Hp|]. intros r' E'. apply dc_true. now apply P.
  - intros s r R E. destruct (reads_edge _ _ _ R ltac:(discriminate) E) as (p & Hp & P). exists p. split; [exact Hp|]. intros r' E'. apply dc_false. now apply P.
  - intros s c r R E. destruct (reads_edge _ _ _ R ltac:(discriminate) E) as (p & Hp & P). exists p. split; [exact Hp|]. intros r' E'. apply dc_char. now apply P.
  - intros pr s x z r Ip R N G E. assert (exists p, s = p ++ r /\ forall r', edge r' -> reads (p ++ r') (SNumber x) r' \/ reads (p ++ r') (SText x) r') as (p & Hp & P).
    { destruct R as [R|R]; destruct (reads_edge _ _ _ R ltac:(discriminate) E) as (p & Hp & P); exists p; split; auto. }
    exists p. split; [exact Hp|]. intros r' E'. exact (dc_integer alnum fl _ _ _ _ _ Ip (P r' E') N G).
  - intros pr s x z r Ip R N E. assert (exists p, s = p ++ r /\ forall r', edge r' -> reads (p ++ r') (SNumber x) r' \/ reads (p ++ r') (SText x) r') as (p & Hp & P).
    { destruct R as [R|R]; destruct (reads_edge _ _ _ R ltac:(discriminate) E) as (p & Hp & P); exists p; split; auto. }
    exists p. split; [exact Hp|]. intros r' E'. exact (dc_float alnum fl _ _ _ _ _ Ip (P r' E') N).
  - intros s x r R E. destruct (reads_edge _ _ _ R ltac:(discriminate) E) as (p & Hp & P). exists p. split; [exact Hp|]. intros r' E'. apply dc_string. now apply P.
  - intros ts vs s s1 s2 r R1 _ IH R2 E. destruct (punct_change _ _ _ R1) as (p1 & -> & P1). destruct (punct_change _ _ _ R2) as (p2 & -> & P2).
    destruct (IH (punct_edge _ _ _ R2)) as (_ & p & -> & P). exists (p1 ++ p ++ p2). split; [rewrite <- !app_assoc; reflexivity|].
    intros r' E'. rewrite <- !app_assoc. eapply dc_tuple; [apply P1| |apply P2]. apply P. exact (punct_edge _ _ _ (P2 r')).
  - intros fs vs ms s s1 s2 r Nd L Pm R1 _ IH R2 E. destruct (punct_change _ _ _ R1) as (p1 & -> & P1). destruct (punct_change _ _ _ R2) as (p2 & -> & P2).
    destruct (IH (punct_edge _ _ _ R2)) as (_ & p & -> & P). exists (p1 ++ p ++ p2). split; [rewrite <- !app_assoc; reflexivity|].
    intros r' E'. rewrite <- !app_assoc. eapply dc_struct; [exact Nd|exact L|exact Pm|apply P1| |apply P2]. apply P. exact (punct_edge _ _ _ (P2 r')).
  - intros cs k l t v s s1 s2 s3 s4 s5 s6 s7 s8 r Nk Last R0 R1 R2 R3 R4 R5 R6 _ IH R8 E.
    destruct (IH (punct_edge _ _ _ R8)) as (p & -> & P).
    destruct (punct_change _ _ _ R0) as (p0 & -> & P0). destruct (text_change _ _ _ R1) as (p1 & -> & P1).
    destruct (punct_change _ _ _ R2) as (p2 & -> & P2). destruct (text_change _ _ _ R3) as (p3 & -> & P3).
    destruct (punct_change _ _ _ R4) as (p4 & -> & P4). destruct (text_change _ _ _ R5) as (p5 & -> & P5).
    destruct (punct_change _ _ _ R6) as (p6 & -> & P6). destruct (punct_change _ _ _ R8) as (p8 & -> & P8).
    exists (p0 ++ p1 ++ p2 ++ p3 ++ p4 ++ p5 ++ p6 ++ p ++ p8). split; [rewrite <- !app_assoc; reflexivity|].
    intros r' E'. rewrite <- !app_assoc.
    eapply (dc_enum alnum fl cs k l t v); [exact Nk|exact Last|apply P0|apply P1|apply P2|apply P3|apply P4|apply P5|apply P6| |apply P8].
    apply P. exact (punct_edge _ _ _ (P8 r')).
  - intros b s E. split; [auto|]. exists []. split; [reflexivity|]. intros r' E'. split; [apply el_nil|auto].
  - intros b t ts v vs s s0 s1 r S _ IH _ IH2 E. destruct (IH2 E) as (E1 & p2 & -> & P2). destruct (IH (E1 eq_refl)) as (p1 & -> & P1).
    destruct (separated_change _ _ _ S) as (p0 & -> & P0). split; [intros ->; exact (separated_edge _ _ S)|].
    exists (p0 ++ p1 ++ p2). split; [rewrite <- !app_assoc; reflexivity|]. intros r' E'. destruct (P2 r' E') as (El & Ed). rewrite <- !app_assoc. split.
    + eapply el_cons; [apply P0|apply P1; now apply Ed|exact El].
    + intros ->. exact (separated_edge _ _ (P0 _)).
  - intros b s E. split; [auto|]. exists []. split; [reflexivity|]. intros r' E'. split; [apply mb_nil|auto].
  - intros b l t v ms s s0 s1 s2 s3 r S R1 R2 _ IH _ IH2 E. destruct (IH2 E) as (E1 & p4 & -> & P4). destruct (IH (E1 eq_refl)) as (p3 & -> & P3).
    destruct (separated_change _ _ _ S) as (p0 & -> & P0). destruct (text_change _ _ _ R1) as (p1 & -> & P1). destruct (punct_change _ _ _ R2) as (p2 & -> & P2).
    split; [intros ->; exact (separated_edge _ _ S)|].
    exists (p0 ++ p1 ++ p2 ++ p3 ++ p4). split; [rewrite <- !app_assoc; reflexivity|]. intros r' E'. destruct (P4 r' E') as (El & Ed). rewrite <- !app_assoc. split.
    + eapply mb_cons; [apply P0|apply P1|apply P2|apply P3; now apply Ed|exact El].
    + intros ->. exact (separated_edge _ _ (P0 _)).
Qed.

(** ** One element, one member *)

Lemma elements_edge b ts s vs r : elements b ts s vs r -> b = false -> edge r -> edge s.
Proof. intros H. destruct H as [b s|b t ts v vs s s0 s1 r S D H]; intros -> E; [exact E|exact (separated_edge _ _ S)]. Qed.

Lemma members_edge b ms s r : members b ms s r -> b = false -> edge r -> edge s.
Proof. intros H. destruct H as [b s|b l t v ms s s0 s1 s2 s3 r S R1 R2 D H]; intros -> E; [exact E|exact (separated_edge _ _ S)]. Qed.

Lemma element_spot ts1 : forall b t ts2 s vs r i v, elements b (ts1 ++ t :: ts2) s vs r -> edge r -> i = List.length ts1 -> nth_error vs i = Some v ->
  exists p s3 s4 vs1 vs2, s = p ++ s3 /\ vs = vs1 ++ v :: vs2 /\ List.length vs1 = i /\ document t s3 v s4 /\ edge s4 /\
    forall s3' v', document t s3' v' s4 -> elements b (ts1 ++ t :: ts2) (p ++ s3') (vs1 ++ v' :: vs2) r /\ (b = false -> edge (p ++ s3')).
Proof.
  induction ts1 as [|t0 ts1 IH]; intros b t ts2 s vs r i v H E -> Nv; cbn [app List.length] in *.
  - inversion H as [|b0 t1 ts0 v1 vs0 a s0 s1 r1 S D El]; subst. cbn in Nv. injection Nv as ->.
    destruct (separated_change _ _ _ S) as (p & -> & P). exists p, s0, s1, [], vs0.
    repeat (split; [first [reflexivity|exact D|exact (elements_edge _ _ _ _ _ El eq_refl E)]|]).
    intros s3' v' D'. cbn [app]. split; [eapply el_cons; [apply P|exact D'|exact El]|]. intros ->. exact (separated_edge _ _ (P _)).
  - inversion H as [|b0 t1 ts0 v1 vs0 a s0 s1 r1 S D El]; subst. cbn in Nv.
    destruct (IH _ _ _ _ _ _ _ _ El E eq_refl Nv) as (p & s3 & s4 & vs1 & vs2 & -> & -> & L & D3 & E4 & F).
    destruct (separated_change _ _ _ S) as (p0 & -> & P0).
    destruct (document_change _ _ _ _ D (elements_edge _ _ _ _ _ El eq_refl E)) as (p1 & -> & P1).
    exists (p0 ++ p1 ++ p), s3, s4, (v1 :: vs1), vs2. split; [rewrite <- !app_assoc; reflexivity|]. split; [reflexivity|]. split; [cbn; congruence|].
    split; [exact D3|]. split; [exact E4|]. intros s3' v' D'. destruct (F _ _ D') as (El' & Ed). rewrite <- !app_assoc. cbn [app]. split.
    + eapply el_cons; [apply P0|apply P1; now apply Ed|exact El'].
    + intros ->. exact (separated_edge _ _ (P0 _)).
Qed.

Lemma member_spot ms1 : forall b l t v ms2 s r, members b (ms1 ++ (l, t, v) :: ms2) s r -> edge r ->
  exists p s3 s4, s = p ++ s3 /\ document t s3 v s4 /\ edge s4 /\
    forall s3' v', document t s3' v' s4 -> members b (ms1 ++ (l, t, v') :: ms2) (p ++ s3') r /\ (b = false -> edge (p ++ s3')).
Proof.
  induction ms1 as [|m ms1 IH]; intros b l t v ms2 s r H E; cbn [app] in *.
  - inversion H as [|b0 l1 t1 v1 ms0 a s0 s1 s2 s3 r1 S R1 R2 D El]; subst.
    destruct (separated_change _ _ _ S) as (p0 & -> & P0). destruct (text_change _ _ _ R1) as (p1 & -> & P1). destruct (punct_change _ _ _ R2) as (p2 & -> & P2).
    exists (p0 ++ p1 ++ p2), s2, s3. split; [rewrite <- !app_assoc; reflexivity|]. split; [exact D|]. split; [exact (members_edge _ _ _ _ El eq_refl E)|].
    intros s3' v' D'. rewrite <- !app_assoc. split; [eapply mb_cons; [apply P0|apply P1|apply P2|exact D'|exact El]|]. intros ->. exact (separated_edge _ _ (P0 _)).
  - inversion H as [|b0 l1 t1 v1 ms0 a s0 s1 s2 s3 r1 S R1 R2 D El]; subst.
    destruct (IH _ _ _ _ _ _ _ El E) as (p & k & s4 & -> & D3 & E4 & F).
    destruct (document_change _ _ _ _ D (members_edge _ _ _ _ El eq_refl E)) as (p3 & -> & P3).
    destruct (separated_change _ _ _ S) as (p0 & -> & P0). destruct (text_change _ _ _ R1) as (p1 & -> & P1). destruct (punct_change _ _ _ R2) as (p2 & -> & P2).
    exists (p0 ++ p1 ++ p2 ++ p3 ++ p), k, s4. split; [rewrite <- !app_assoc; reflexivity|]. split; [exact D3|]. split; [exact E4|].
    intros s3' v' D'. destruct (F _ _ D') as (El' & Ed). rewrite <- !app_assoc. split.
    + eapply mb_cons; [apply P0|apply P1|apply P2|apply P3; now apply Ed|exact El'].
    + intros ->. exact (separated_edge _ _ (P0 _)).
Qed.

(** ** Any depth *)

Lemma part_spot t v q u w : component t v q u w -> forall s r, document t s v r ->
  exists p s0 r0, s = p ++ s0 /\ document u s0 w r0 /\ (q <> [] \/ edge r -> edge r0) /\
    forall s0' w', document u s0' w' r0 -> exists v', replaced q w' v v' /\ document t (p ++ s0') v' r.
Proof.
  intros C. induction C as [t v|ts vs i t v q u w Nt Nv C IH|fs vs i l t v q u w Nt Nv C IH|cs k l t v q u w Nt C IH]; intros s r D.
  - exists [], s, r. split; [reflexivity|]. split; [exact D|]. split; [intros [N|E]; [congruence|exact E]|]. intros s0' w' D'. exists w'. split; [constructor|exact D'].
  - inversion D as [| | | | | | |ts0 vs0 a s1 s2 b R1 El R2| |]; subst.
    destruct (nth_error_split _ _ Nt) as (ts1 & ts2 & -> & L1).
    destruct (element_spot _ _ _ _ _ _ _ _ _ El (punct_edge _ _ _ R2) (eq_sym L1) Nv) as (p & s3 & s4 & vs1 & vs2 & -> & -> & L2 & D3 & E4 & F).
    destruct (IH _ _ D3) as (p' & s0 & r0 & -> & D0 & E0 & G). destruct (punct_change _ _ _ R1) as (p1 & -> & P1).
    exists (p1 ++ p ++ p'), s0, r0. split; [rewrite <- !app_assoc; reflexivity|]. split; [exact D0|]. split; [intros _; apply E0; right; exact E4|].
    intros s0' w' D'. destruct (G _ _ D') as (v' & Rv & Dv). exists (VTuple (vs1 ++ v' :: vs2)). split; [rewrite <- L2; now constructor|].
    rewrite <- !app_assoc. eapply dc_tuple; [apply P1|apply F, Dv|exact R2].
  - inversion D as [| | | | | | | |fs0 vs0 ms a s1 s2 b Nd Lv Pm R1 Mm R2|]; subst.
    destruct (nth_error_split _ _ Nt) as (f1 & f2 & -> & L1). destruct (nth_error_split _ _ Nv) as (v1 & v2 & -> & L2).
    assert (Cm : forall x, combine (f1 ++ (l, t) :: f2) (v1 ++ x :: v2) = combine f1 v1 ++ (l, t, x) :: combine f2 v2).
    { intros x. assert (L : List.length f1 = List.length v1) by congruence. clear - L. revert v1 L.
      induction f1 as [|f f1 IHf]; intros [|y v1] L; try discriminate L; cbn; [reflexivity|]. f_equal. apply IHf. now injection L. }
    rewrite Cm in Pm.
    assert (Im : In (l, t, v) ms) by (apply (Permutation_in _ (Permutation_sym Pm)); apply in_elt).
    apply in_split in Im. destruct Im as (m1 & m2 & ->). apply Permutation_app_inv in Pm.
    destruct (member_spot _ _ _ _ _ _ _ _ Mm (punct_edge _ _ _ R2)) as (p & s3 & s4 & -> & D3 & E4 & F).
    destruct (IH _ _ D3) as (p' & s0 & r0 & -> & D0 & E0 & G). destruct (punct_change _ _ _ R1) as (p1 & -> & P1).
    exists (p1 ++ p ++ p'), s0, r0. split; [rewrite <- !app_assoc; reflexivity|]. split; [exact D0|]. split; [intros _; apply E0; right; exact E4|].
    intros s0' w' D'. destruct (G _ _ D') as (v' & Rv & Dv). exists (VStruct (v1 ++ v' :: v2)). split; [rewrite <- L2; now constructor|].
    rewrite <- !app_assoc. eapply (dc_struct alnum fl _ _ (m1 ++ (l, t, v') :: m2)); [exact Nd| | |apply P1|apply F, Dv|exact R2].
    + rewrite <- Lv, !app_length. reflexivity.
    + rewrite Cm. etransitivity; [symmetry; apply Permutation_middle|]. etransitivity; [apply perm_skip, Pm|]. apply Permutation_middle.
  - inversion D as [| | | | | | | | |cs0 k0 l0 t0 v0 a s1 s2 s3 s4 s5 s6 s7 s8 b Nk Last R0 R1 R2 R3 R4 R5 R6 D7 R8]; subst.
    rewrite Nt in Nk. injection Nk as <- <-.
    destruct (IH _ _ D7) as (p & s0 & r0 & -> & D0 & E0 & G).
    destruct (punct_change _ _ _ R0) as (p0 & -> & P0). destruct (text_change _ _ _ R1) as (p1 & -> & P1).
    destruct (punct_change _ _ _ R2) as (p2 & -> & P2). destruct (text_change _ _ _ R3) as (p3 & -> & P3).
    destruct (punct_change _ _ _ R4) as (p4 & -> & P4). destruct (text_change _ _ _ R5) as (p5 & -> & P5).
    destruct (punct_change _ _ _ R6) as (p6 & -> & P6).
    exists (p0 ++ p1 ++ p2 ++ p3 ++ p4 ++ p5 ++ p6 ++ p), s0, r0. split; [rewrite <- !app_assoc; reflexivity|]. split; [exact D0|].
    split; [intros _; apply E0; right; exact (punct_edge _ _ _ R8)|].
    intros s0' w' D'. destruct (G _ _ D') as (v' & Rv & Dv). exists (VCase k v'). split; [now constructor|]. rewrite <- !app_assoc.
    eapply (dc_enum alnum fl cs k l t v'); [exact Nt|exact Last|apply P0|apply P1|apply P2|apply P3|apply P4|apply P5|apply P6|exact Dv|exact R8].
Qed.

Lemma part_document t v q u w s r : component t v q u w -> q <> [] -> document t s v r ->
  exists p d k, s = p ++ d ++ k /\ document u d w [] /\
    forall d' w', document u d' w' [] -> exists v', replaced q w' v v' /\ document t (p ++ d' ++ k) v' r.
Proof.
  intros C N D. destruct (part_spot _ _ _ _ _ C _ _ D) as (p & s0 & k & -> & D0 & E & G). specialize (E (or_introl N)).
  destruct (document_change _ _ _ _ D0 E) as (d & -> & P). exists p, d, k. split; [reflexivity|].
  split; [specialize (P [] (or_introl eq_refl)); now rewrite app_nil_r in P|].
  intros d' w' D'. apply G. destruct (document_change _ _ _ _ D' (or_introl eq_refl)) as (d2 & E2 & P2). rewrite app_nil_r in E2. subst d2. now apply P2.
Qed.

Lemma part_stands pf t text v q u w : all_structs (fun n => (n < 64)%nat) t -> stands_for alnum fl pf t text v -> component t v q u w -> q <> [] ->
  exists p d k, text = p ++ d ++ k /\ document u d w [] /\
    forall d' w', document u d' w' [] -> exists v', replaced q w' v v' /\ stands_for alnum fl pf t (p ++ d' ++ k) v'.
Proof.
  intros W S C N. apply (decode_exact alnum fl pf t text [] v W) in S. destruct S as (r & x & r0 & D & R).
  destruct (part_document _ _ _ _ _ _ _ C N D) as (p & d & k & -> & D0 & G). exists p, d, k. split; [reflexivity|]. split; [exact D0|].
  intros d' w' D'. destruct (G _ _ D') as (v' & Rv & Dv). exists v'. split; [exact Rv|].
  apply (decode_exact alnum fl pf t _ [] v' W). exists r, x, r0. auto.
Qed.

End Part.

(** The value after the change is determined. *)
Lemma same_split {A : Type} (a a' : list A) x x' b b' : a ++ x :: b = a' ++ x' :: b' -> List.length a = List.length a' -> a = a' /\ x = x' /\ b = b'.
Proof.
  revert a'. induction a as [|y a IH]; intros [|y' a'] E L; try discriminate L; cbn [app] in E; injection E as -> E; [auto|].
  injection L as L. destruct (IH _ E L) as (-> & -> & ->). auto.
Qed.

Lemma replaced_det q w v v1 v2 : replaced q w v v1 -> replaced q w v v2 -> v1 = v2.
Proof.
  intros H. revert v2. induction H as [w v|a v v' b q w H IH|a v v' b q w H IH|k v v' q w H IH]; intros v2 H2.
  - inversion H2. reflexivity.
  - inversion H2 as [|a0 x x' b0 q0 w0 H0 L E0 E1 E2| |]; subst. destruct (same_split _ _ _ _ _ _ E1 L) as (-> & -> & ->). now rewrite (IH _ H0).
  - inversion H2 as [| |a0 x x' b0 q0 w0 H0 L E0 E1 E2|]; subst. destruct (same_split _ _ _ _ _ _ E1 L) as (-> & -> & ->). now rewrite (IH _ H0).
  - inversion H2; subst. f_equal. now apply IH.
Qed.

Lemma nth_at {A : Type} (a b : list A) x : nth_error (a ++ x :: b) (List.length a) = Some x.
Proof. induction a; [reflexivity|assumption]. Qed.

Lemma replaced_component t v q u w w' v' : component t v q u w -> replaced q w' v v' -> component t v' q u w'.
Proof.
  intros C. revert v'. induction C as [t v|ts vs i t v q u w Nt Nv C IH|fs vs i l t v q u w Nt Nv C IH|cs k l t v q u w Nt C IH]; intros v' R.
  - inversion R; subst. constructor.
  - inversion R as [|a x x' b q0 w0 H0 L E0 E1 E2| |]; subst. rewrite nth_at in Nv. injection Nv as ->. eapply cp_tuple; [exact Nt|apply nth_at|now apply IH].
  - inversion R as [| |a x x' b q0 w0 H0 L E0 E1 E2|]; subst. rewrite nth_at in Nv. injection Nv as ->. eapply cp_struct; [exact Nt|apply nth_at|now apply IH].
  - inversion R; subst. eapply cp_case; [exact Nt|now apply IH].
Qed.
