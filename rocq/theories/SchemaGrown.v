(** * Records under a changed type: layouts with more cases *)

From Coq Require Import Permutation ZifyBool ZifyNat ZifyN.
From Verif Require Import Base BaseFacts UtilModel UtilProofs StrModel TypesModel TypesSpec TypesProofs.
From Verif Require Import MarshalModel MarshalSpec ListFacts LayoutProofs FieldProofs MarshalMore FormatSpec FormatLayout SchemaSpec SchemaProofs.

Inductive grown : layout -> layout -> Prop :=
| gr_intro a o ix fx vs vs' : grown_vars vs vs' -> grown (Layout a o ix fx vs) (Layout a o ix fx vs')
with grown_vars : list (vfield layout) -> list (vfield layout) -> Prop :=
| gv_nil : grown_vars [] []
| gv_cons v v' vs vs' : grown_var v v' -> grown_vars vs vs' -> grown_vars (v :: vs) (v' :: vs')
with grown_var : vfield layout -> vfield layout -> Prop :=
| gv_string q n : grown_var {| v_path := q; v_fixed := n; v_kind := VString |} {| v_path := q; v_fixed := n; v_kind := VString |}
| gv_enum q n ls ls' more : grown_list ls ls' ->
    grown_var {| v_path := q; v_fixed := n; v_kind := VEnum ls |} {| v_path := q; v_fixed := n; v_kind := VEnum (ls' ++ more) |}
with grown_list : list layout -> list layout -> Prop :=
| gl_nil : grown_list [] []
| gl_cons l l' ls ls' : grown l l' -> grown_list ls ls' -> grown_list (l :: ls) (l' :: ls').

Scheme grown_mind := Induction for grown Sort Prop
  with grown_vars_mind := Induction for grown_vars Sort Prop
  with grown_var_mind := Induction for grown_var Sort Prop
  with grown_list_mind := Induction for grown_list Sort Prop.

Definition vrel (P : layout -> layout -> Prop) (v v' : vfield layout) : Prop :=
  v_path v' = v_path v /\ v_fixed v' = v_fixed v /\
  match v_kind v, v_kind v' with
  | VString, VString => True
  | VEnum ls, VEnum ls' => exists pre more, ls' = pre ++ more /\ Forall2 P ls pre
  | _, _ => False
  end.

Lemma grown_induction (P : layout -> layout -> Prop) :
  (forall a o ix fx vs vs', grown (Layout a o ix fx vs) (Layout a o ix fx vs') -> Forall2 (vrel P) vs vs' ->
     P (Layout a o ix fx vs) (Layout a o ix fx vs')) ->
  forall l l', grown l l' -> P l l'.
Proof.
  intros H l l' G.
  induction G using grown_mind with
    (P0 := fun vs vs' _ => Forall2 (vrel P) vs vs')
    (P1 := fun v v' _ => vrel P v v')
    (P2 := fun ls ls' _ => Forall2 P ls ls').
  - apply H; [constructor; assumption|assumption].
  - constructor.
  - constructor; assumption.
  - repeat split.
  - split; [reflexivity|]. split; [reflexivity|]. cbn [v_kind]. exists ls', more. auto.
  - constructor.
  - constructor; assumption.
Qed.

Lemma grown_vars_iff vs vs' : grown_vars vs vs' <-> Forall2 grown_var vs vs'.
Proof. split; induction 1; constructor; assumption. Qed.
Lemma grown_list_iff ls ls' : grown_list ls ls' <-> Forall2 grown ls ls'.
Proof. split; induction 1; constructor; assumption. Qed.

(** ** Layouts of an extended type *)

Lemma sort_related {A B} (R : A -> B -> Prop) lessa lessb l l' :
  (forall a a' b b', R a a' -> R b b' -> lessa a b = lessb a' b') ->
  Forall2 R l l' -> Forall2 R (sort_desc lessa l) (sort_desc lessb l').
Proof.
  intros HR. assert (I : forall m m', Forall2 R m m' -> forall a a', R a a' -> Forall2 R (insert_desc lessa a m) (insert_desc lessb a' m')).
  { induction 1 as [|b b' m m' Hb Hm IH]; intros a a' Ha; cbn [insert_desc]; [constructor; [exact Ha|constructor]|].
    rewrite (HR _ _ _ _ Ha Hb). destruct (lessb a' b'); constructor; try assumption; [apply IH; exact Ha|constructor; assumption]. }
  induction 1 as [|a a' m m' Ha Hm IH]; cbn [sort_desc]; [constructor|]. apply I; assumption.
Qed.

Lemma link_related vs vs' : Forall2 grown_var vs vs' -> forall k ix r ix1 r' ix1',
  link_vars k vs ix = Ret (r, ix1) -> link_vars k vs' ix = Ret (r', ix1') -> ix1' = ix1 /\ Forall2 grown_var r r'.
Proof.
  induction 1 as [|v v' vs vs' Hv Hvs IH]; intros k ix r ix1 r' ix1' H H'; cbn [link_vars] in H, H'.
  - injection H as <- <-. injection H' as <- <-. split; [reflexivity|constructor].
  - assert (E : v_path v' = v_path v) by (destruct Hv; reflexivity). rewrite E in H'.
    destruct (search ix (v_path v)) as [i|]; [|discriminate].
    inv_bind H. inv_bind H. destruct a0 as [r0 ix0]. injection H as <- <-.
    inv_bind H'. inv_bind H'. destruct a1 as [r0' ix0']. injection H' as <- <-.
    assert (a0 = a) by congruence. subst a0.
    destruct (IH _ _ _ _ _ _ Ha0 Ha2) as [-> I]. split; [reflexivity|]. constructor; [|exact I].
    destruct Hv; cbn [v_path v_kind]; constructor; assumption.
Qed.

Definition rv (v v' : vfield layout) : Prop := grown_var v v' /\ vfield_align v' = vfield_align v.

Lemma finish_related fb vs vs' l l' : Forall2 rv vs vs' ->
  finish_layout (fb, vs) = Ret l -> finish_layout (fb, vs') = Ret l' -> grown l l'.
Proof.
  intros HR H H'. destruct fb as [fx bs]. unfold finish_layout in H, H'.
  inv_bind H. destruct a as [bits conts]. rewrite Ha in H'. cbn [bind] in H'.
  inv_bind H. destruct a as [placed size]. rewrite Ha0 in H'. cbn [bind] in H'.
  inv_bind H. rewrite Ha1 in H'. cbn [bind] in H'.
  assert (HS : Forall2 rv (sort_desc (fun l r => vfield_align l <? vfield_align r) vs) (sort_desc (fun l r => vfield_align l <? vfield_align r) vs')).
  { apply sort_related; [|exact HR]. intros v v' w w' [_ E1] [_ E2]. rewrite E1, E2. reflexivity. }
  set (vars := sort_desc _ vs) in *. set (vars' := sort_desc _ vs') in *.
  assert (EA : match vars' with v :: _ => vfield_align v | [] => 1 end = match vars with v :: _ => vfield_align v | [] => 1 end).
  { destruct HS as [|v v' m m' [_ E] _]; [reflexivity|exact E]. }
  cbv zeta in H, H'. rewrite EA in H'.
  inv_bind H. rewrite Ha2 in H'. cbn [bind] in H'.
  inv_bind H. rewrite Ha3 in H'. cbn [bind] in H'.
  inv_bind H. destruct a2 as [r ix]. injection H as <-. inv_bind H'. destruct a2 as [r' ix']. injection H' as <-.
  assert (HG0 : Forall2 grown_var vars vars') by (clear - HS; induction HS as [|? ? ? ? [G _] _ IH]; constructor; assumption).
  destruct (link_related _ _ HG0 _ _ _ _ _ _ Ha4 Ha5) as [-> HG]. constructor. apply grown_vars_iff. exact HG.
Qed.

Lemma members_related {A A' B B'} (f : A -> path -> outcome B) (f' : A' -> path -> outcome B') (R : B -> B' -> Prop) l l' :
  Forall2 (fun a a' => forall q b b', f a q = Ret b -> f' a' q = Ret b' -> R b b') l l' ->
  forall q k r r', members f l q k = Ret r -> members f' l' q k = Ret r' -> Forall2 R r r'.
Proof.
  induction 1 as [|a a' l l' Ha Hl IH]; intros q k r r' H H'; cbn [members] in H, H'.
  - injection H as <-. injection H' as <-. constructor.
  - inv_bind H. inv_bind H. injection H as <-. inv_bind H'. inv_bind H'. injection H' as <-.
    constructor; [eapply Ha; eassumption|eapply IH; eassumption].
Qed.

Lemma members_app_inv {A B} (f : A -> path -> outcome B) l1 : forall l2 q k r, members f (l1 ++ l2) q k = Ret r ->
  exists r1 r2, r = r1 ++ r2 /\ members f l1 q k = Ret r1 /\ members f l2 q (k + length l1) = Ret r2.
Proof.
  induction l1 as [|a l1 IH]; intros l2 q k r H; cbn [app] in H.
  - exists [], r. cbn [length]. rewrite Nat.add_0_r. auto.
  - cbn [members] in H. inv_bind H. inv_bind H. injection H as <-. destruct (IH _ _ _ _ Ha0) as (r1 & r2 & -> & H1 & H2).
    exists (a0 :: r1), r2. split; [reflexivity|]. split; [cbn [members]; rewrite Ha, H1; reflexivity|].
    cbn [length]. rewrite Nat.add_succ_r. exact H2.
Qed.

Lemma Forall2_map_snd {L A L' A'} (R : A -> A' -> Prop) (l : list (L * A)) (l' : list (L' * A')) :
  Forall2 R (map snd l) (map snd l') -> Forall2 (fun x y => R (snd x) (snd y)) l l'.
Proof.
  revert l'. induction l as [|x l IH]; intros [|y l'] H; cbn [map] in H; inversion H; subst; constructor; [assumption|].
  apply IH. assumption.
Qed.

Lemma tag_bits_required n m : 0 < n -> 0 < m -> same_tag_bits n m -> required_bits (Z.of_nat (m - 1)) = required_bits (Z.of_nat (n - 1)).
Proof.
  intros Hn Hm H. unfold required_bits, leading_zeros64.
  assert (L : forall k, 1 < k -> forall b, (0 <= b)%Z -> (Z.of_nat k <= 2 ^ b <-> Z.log2 (Z.of_nat (k - 1)) < b)%Z).
  { intros k Hk b Hb. rewrite <- Z.log2_lt_pow2 by lia. lia. }
  assert (H0 : n = 1 <-> m = 1). { specialize (H 0%Z ltac:(lia)). change (2 ^ 0)%Z with 1%Z in H. lia. }
  destruct (Z.eqb_spec (Z.of_nat (m - 1)) 0), (Z.eqb_spec (Z.of_nat (n - 1)) 0); try lia.
  set (a := Z.log2 (Z.of_nat (m - 1))). set (b := Z.log2 (Z.of_nat (n - 1))).
  assert (Ha : (0 <= a)%Z) by apply Z.log2_nonneg. assert (Hb : (0 <= b)%Z) by apply Z.log2_nonneg.
  pose proof (H (a + 1) ltac:(lia))%Z as H1. pose proof (H (b + 1) ltac:(lia))%Z as H2.
  pose proof (L n ltac:(lia) (a + 1) ltac:(lia))%Z as L1. pose proof (L m ltac:(lia) (a + 1) ltac:(lia))%Z as L2.
  pose proof (L n ltac:(lia) (b + 1) ltac:(lia))%Z as L3. pose proof (L m ltac:(lia) (b + 1) ltac:(lia))%Z as L4.
  fold a in L2, L4. fold b in L1, L3. clearbody a b.
  assert (b < a + 1)%Z by (apply L1, H1, L2; lia). assert (a < b + 1)%Z by (apply L4, H2, L3; lia). lia.
Qed.

Lemma tag_width_same n m : same_tag_bits n m -> tag_width m = tag_width n.
Proof.
  intros H. unfold tag_width.
  pose proof (H 8 ltac:(lia))%Z. pose proof (H 16 ltac:(lia))%Z. pose proof (H 32 ltac:(lia))%Z. pose proof (H 64 ltac:(lia))%Z.
  repeat match goal with |- context [(Z.of_nat n <=? ?b)%Z] => destruct (Z.leb_spec (Z.of_nat n) b) end;
  repeat match goal with |- context [(Z.of_nat m <=? ?b)%Z] => destruct (Z.leb_spec (Z.of_nat m) b) end; try reflexivity; lia.
Qed.

Lemma greatest_le l m : 1 <= m -> (forall x, In x l -> x <= m) -> greatest l <= m.
Proof.
  intros Hm H. induction l as [|a l IH]; cbn; [exact Hm|]. fold (greatest l). pose proof (H a (or_introl eq_refl)).
  assert (greatest l <= m) by (apply IH; intros x Hx; apply H; right; exact Hx). lia.
Qed.

Lemma extended_alignment t t' : extended t t' -> type_alignment t' = type_alignment t.
Proof.
  revert t t'. apply (extended_mind (fun t t' => type_alignment t' = type_alignment t)
                                    (fun ts ts' => map type_alignment ts' = map type_alignment ts)); try reflexivity.
  - intros ts ts' _ IH. cbn [type_alignment]. rewrite IH. reflexivity.
  - intros fs fs' _ IH. rewrite !map_map in IH. cbn [type_alignment]. rewrite IH. reflexivity.
  - intros cs cs' more _ IH Hb Hm. rewrite !map_map in IH. cbn [type_alignment]. rewrite (tag_width_same _ _ Hb).
    rewrite map_app, greatest_app, IH. f_equal.
    assert (greatest (map (fun c => type_alignment (snd c)) more) <= greatest (map (fun c => type_alignment (snd c)) cs)); [|lia].
    apply greatest_le; [apply greatest_pos|]. intros x Hx. apply in_map_iff in Hx as (c & <- & Hc). exact (Hm c Hc).
  - intros t t' ts ts' _ E _ Es. cbn [map]. rewrite E, Es. reflexivity.
Qed.

Lemma extended_map_alignment ts ts' : extended_list ts ts' -> map type_alignment ts' = map type_alignment ts.
Proof. induction 1 as [|t t' ts ts' H _ IH]; [reflexivity|]. cbn [map]. rewrite (extended_alignment _ _ H), IH. reflexivity. Qed.

Definition ru (u u' : unrolled) : Prop := fst u' = fst u /\ Forall2 rv (snd u) (snd u').

Lemma concat_related us us' : Forall2 ru us us' -> ru (concat_unrolled us) (concat_unrolled us').
Proof.
  induction 1 as [|u u' us us' [H1 H2] _ [I1 I2]]; [split; [reflexivity|constructor]|].
  unfold concat_unrolled in *. cbn [fst snd flat_map] in *. injection I1 as I3 I4. rewrite H1. split; [exact (f_equal2 pair (f_equal (app _) I3) (f_equal (app _) I4))|].
  apply Forall2_app; assumption.
Qed.

Lemma case_alignments (cs : list (str * ty)) q k ls :
  members (fun c q => u <- unroll_type (snd c) q ;; finish_layout u) cs q k = Ret ls ->
  map l_align ls = map (fun c => type_alignment (snd c)) cs.
Proof. intros H. eapply members_map; [|exact H]. intros c q' l _ Hl. eapply layout_alignment. exact Hl. Qed.

Lemma alignments_pos (cs : list (str * ty)) q k ls :
  members (fun c q => u <- unroll_type (snd c) q ;; finish_layout u) cs q k = Ret ls -> Forall (fun l => 1 <= l_align l) ls.
Proof.
  intros H. rewrite Forall_forall. intros l Hl. apply In_nth_error in Hl as [i Hl].
  destruct (members_nth _ _ _ _ _ _ _ H Hl) as (c & _ & Hc). cbv beta in Hc. inv_bind Hc.
  destruct (unroll_need _ _ _ Ha) as [_ H2]. rewrite (finish_align _ _ Hc H2). unfold need. pose proof (greatest_pos (map vfield_align (snd a))). lia.
Qed.

Lemma unroll_related t t' : extended t t' ->
  forall q u u', unroll_type t q = Ret u -> unroll_type t' q = Ret u' -> ru u u'.
Proof.
  revert t t'.
  apply (extended_mind (fun t t' => forall q u u', unroll_type t q = Ret u -> unroll_type t' q = Ret u' -> ru u u')
           (fun ts ts' => Forall2 (fun t t' => forall q u u', unroll_type t q = Ret u -> unroll_type t' q = Ret u' -> ru u u') ts ts')).
  - intros q u u' H H'. cbn in H, H'. injection H as <-. injection H' as <-. split; [reflexivity|constructor].
  - intros p q u u' H H'. cbn in H, H'. injection H as <-. injection H' as <-. split; [reflexivity|constructor].
  - intros q u u' H H'. cbn in H, H'. injection H as <-. injection H' as <-. split; [reflexivity|].
    constructor; [|constructor]. split; [constructor|reflexivity].
  - intros ts ts' _ IH q u u' H H'. cbn [unroll_type] in H, H'. inv_check H. inv_check H'. inv_bind H. inv_bind H'.
    injection H as <-. injection H' as <-. apply concat_related. eapply members_related; [exact IH|eassumption|eassumption].
  - intros fs fs' _ IH q u u' H H'. cbn [unroll_type] in H, H'. inv_check H. inv_check H'. inv_bind H. inv_bind H'.
    injection H as <-. injection H' as <-. apply concat_related.
    eapply members_related; [|exact Ha|exact Ha0]. apply Forall2_map_snd in IH. exact IH.
  - intros cs cs' more He IH Hb Hm q u u' H H'. cbn [unroll_type] in H, H'. inv_check H. inv_check H'.
    inv_bind H. inv_bind H'. rename a into ls. rename a0 into ls'.
    assert (Hlen : 0 < length cs) by (destruct cs; [discriminate|cbn [length]; lia]).
    assert (Hlen' : 0 < length (cs' ++ more)) by (destruct (cs' ++ more); [discriminate|cbn [length]; lia]).
    injection H as <-. injection H' as <-. rewrite (tag_bits_required _ _ Hlen Hlen' Hb). split; [reflexivity|]. cbn [snd].
    constructor; [|constructor]. pose proof Ha0 as Hall. apply members_app_inv in Ha0 as (pre & rest & -> & H1 & H2).
    assert (HG : Forall2 grown ls pre).
    { eapply members_related; [|exact Ha|exact H1]. apply Forall2_map_snd in IH. eapply Forall2_impl'; [|exact IH].
      cbv beta. intros c c' Hcc q' l l' Hl Hl'. inv_bind Hl. inv_bind Hl'. destruct (Hcc _ _ _ Ha0 Ha1) as [E1 E2].
      destruct a as [fb vs], a0 as [fb' vs']. cbn [fst snd] in E1, E2. subst fb'. eapply finish_related; eassumption. }
    split; [constructor; apply grown_list_iff; exact HG|].
    rewrite (enum_align ls) by (eapply alignments_pos; exact Ha). rewrite (enum_align (pre ++ rest)) by (eapply alignments_pos; exact Hall).
    rewrite (case_alignments _ _ _ _ Ha), (case_alignments _ _ _ _ Hall).
    rewrite map_app, greatest_app. pose proof (extended_map_alignment _ _ He) as E. rewrite !map_map in E. rewrite E.
    assert (greatest (map (fun c => type_alignment (snd c)) more) <= greatest (map (fun c => type_alignment (snd c)) cs)); [|lia].
    apply greatest_le; [apply greatest_pos|]. intros x Hx. apply in_map_iff in Hx as (c & <- & Hcc). exact (Hm c Hcc).
  - constructor.
  - intros t t' ts ts' _ H _ Hs. constructor; assumption.
Qed.

Lemma layouts_grown t t' q l l' : extended t t' -> calculate_layout t q = Ret l -> calculate_layout t' q = Ret l' -> grown l l'.
Proof.
  unfold calculate_layout. intros He H H'. inv_bind H. inv_bind H'. destruct (unroll_related _ _ He _ _ _ Ha Ha0) as [E1 E2].
  destruct a as [fb vs], a0 as [fb' vs']. cbn [fst snd] in E1, E2. subst fb'. eapply finish_related; eassumption.
Qed.

(** ** What is computed with a grown layout *)

Lemma pick_grown {A B} (R : A -> A -> Prop) (f g : A -> outcome B) (G : B -> B -> Prop) ls pre more k x :
  Forall2 R ls pre -> (forall a a', R a a' -> forall b, f a = Ret b -> exists b', g a' = Ret b' /\ G b b') ->
  pick f ls k = Ret x -> exists x', pick g (pre ++ more) k = Ret x' /\ G x x'.
Proof.
  intros HF HR. revert k. induction HF as [|a a' ls pre Ha HF IH]; intros k H; destruct k; cbn [pick app] in *; try discriminate.
  - eapply HR; eassumption.
  - apply IH. exact H.
Qed.

Lemma pick_grown_eq {A B} (R : A -> A -> Prop) (f g : A -> outcome B) ls pre more k x :
  Forall2 R ls pre -> (forall a a', R a a' -> forall b, f a = Ret b -> g a' = Ret b) ->
  pick f ls k = Ret x -> pick g (pre ++ more) k = Ret x.
Proof.
  intros HF HR H. destruct (pick_grown R f g eq ls pre more k x HF) as (x' & H1 & <-); [|exact H|exact H1].
  intros a a' Ha b Hb. exists b. split; [eapply HR; eassumption|reflexivity].
Qed.

Lemma size_grown src l l' : grown l l' -> forall n, encoding_size_with_source src l = Ret n -> encoding_size_with_source src l' = Ret n.
Proof.
  revert l l'. apply (grown_induction (fun l l' => forall n, encoding_size_with_source src l = Ret n -> encoding_size_with_source src l' = Ret n)).
  intros a o ix fx vs vs' _ HV n H. cbn [encoding_size_with_source] in *. inv_bind H.
  assert (E : size_loop src (encoding_size_with_source src) vs' o = Ret a0); [|rewrite E; exact H]. clear H.
  revert o Ha. induction HV as [|v v' vs vs' (E1 & E2 & HK) HV IH]; intros o H; cbn [size_loop] in *; [exact H|].
  rewrite E1. destruct (v_kind v) as [|ls], (v_kind v') as [|ls']; try contradiction.
  - inv_bind H. rewrite Ha. cbn [bind]. apply IH. exact H.
  - destruct HK as (pre & more & -> & HF). inv_bind H. inv_bind H. rewrite Ha. cbn [bind].
    erewrite pick_grown_eq; [|exact HF| |exact Ha0]; [cbn [bind]; apply IH; exact H|]. auto.
Qed.

Lemma encode_grown pf src l l' : grown l l' ->
  forall buf r, encode_with_source pf src l buf = Ret r -> encode_with_source pf src l' buf = Ret r.
Proof.
  intros G0. assert (X : (forall n, encoding_size_with_source src l = Ret n -> encoding_size_with_source src l' = Ret n) /\
    forall buf r, encode_with_source pf src l buf = Ret r -> encode_with_source pf src l' buf = Ret r); [|exact (proj2 X)].
  revert l l' G0. apply (grown_induction (fun l l' => (forall n, encoding_size_with_source src l = Ret n -> encoding_size_with_source src l' = Ret n) /\
    forall buf r, encode_with_source pf src l buf = Ret r -> encode_with_source pf src l' buf = Ret r)).
  intros a o ix fx vs vs' G HV. split; [intros n; apply size_grown; exact G|]. intros buf r H. cbn [encode_with_source] in *.
  inv_check H. inv_bind H. rewrite Ha. cbn [bind]. inv_bind H. destruct a1 as [b2 off].
  assert (E : encode_vars src (encode_with_source pf src) vs' a0 o = Ret (b2, off)); [|rewrite E; exact H]. clear H Ha Hc G.
  rename Ha0 into H. revert a0 o H. induction HV as [|v v' vs vs' (E1 & E2 & HK) HV IH]; intros b o H; cbn [encode_vars] in *; [exact H|].
  rewrite E1. destruct (v_kind v) as [|ls], (v_kind v') as [|ls']; try contradiction.
  - inv_bind H. rewrite Ha. cbn [bind]. destruct (o <=? length b); [|discriminate]. inv_bind H. rewrite Ha0. cbn [bind].
    destruct (a0 =? length a1); [|discriminate]. inv_bind H. rewrite Ha1. cbn [bind]. apply IH. exact H.
  - destruct HK as (pre & more & -> & HF). inv_bind H. rewrite Ha. cbn [bind]. inv_bind H. rewrite Ha0. cbn [bind].
    inv_bind H. destruct a2 as [sub' m].
    erewrite pick_grown_eq; [|exact HF| |exact Ha1]; [|intros x x' [_ Hx]; apply Hx]. cbn [bind].
    inv_bind H. erewrite pick_grown_eq; [|exact HF| |exact Ha2]; [|intros x x' [Hx _]; exact Hx]. cbn [bind]. apply IH. exact H.
Qed.

Lemma pick_same {A B} (f g : A -> outcome B) l i y :
  (forall a x, f a = Ret x -> g a = Ret x) -> pick f l i = Ret y -> pick g l i = Ret y.
Proof. intros H. revert i. induction l as [|a l IH]; intros [|i]; cbn [pick]; try discriminate; auto. Qed.

Lemma offset_grown pf fx data (size : layout -> list byte -> outcome nat) vs vs' :
  Forall2 (vrel (fun l l' => forall d n, size l d = Ret n -> size l' d = Ret n)) vs vs' ->
  forall o n, var_offset_loop pf size fx data vs o = Ret n -> var_offset_loop pf size fx data vs' o = Ret n.
Proof.
  induction 1 as [|v v' vs vs' (E1 & E2 & HK) HV IH]; intros o n H; cbn [var_offset_loop] in *; [exact H|].
  rewrite E2. revert H. apply pick_same. intros f x H.
  destruct (v_kind v) as [|ls], (v_kind v') as [|ls']; try contradiction.
  - inv_bind H. rewrite Ha. cbn [bind]. apply IH. exact H.
  - destruct HK as (pre & more & -> & HF). inv_bind H. rewrite Ha. cbn [bind]. inv_bind H. rewrite Ha0. cbn [bind].
    inv_bind H. erewrite pick_grown_eq; [|exact HF| |exact Ha1]; [cbn [bind]; apply IH; exact H|]. intros y y' Hy. apply Hy.
Qed.

Lemma read_size_grown pf l l' : grown l l' -> forall data n, encoding_size pf l data = Ret n -> encoding_size pf l' data = Ret n.
Proof.
  revert l l'. apply (grown_induction (fun l l' => forall data n, encoding_size pf l data = Ret n -> encoding_size pf l' data = Ret n)).
  intros a o ix fx vs vs' _ HV data n H. cbn [encoding_size] in *. inv_bind H.
  rewrite (offset_grown pf fx data (encoding_size pf) vs vs' HV _ _ Ha). exact H.
Qed.

Lemma Forall2_firstn {A B} (R : A -> B -> Prop) l l' k : Forall2 R l l' -> Forall2 R (firstn k l) (firstn k l').
Proof. intros H. revert k. induction H as [|a b l l' Ha H IH]; intros [|k]; cbn [firstn]; constructor; auto. Qed.

Lemma Forall2_same_length {A B} (R : A -> B -> Prop) l l' : Forall2 R l l' -> length l = length l'.
Proof. induction 1; cbn [length]; congruence. Qed.

Lemma vrel_grown v v' : grown_var v v' -> vrel grown v v'.
Proof.
  intros [q n|q n ls ls' more H]; (split; [reflexivity|]; split; [reflexivity|]); cbn [v_kind]; [exact I|].
  exists ls', more. split; [reflexivity|apply grown_list_iff; exact H].
Qed.

Lemma vrel_impl (P Q : layout -> layout -> Prop) v v' : (forall l l', P l l' -> Q l l') -> vrel P v v' -> vrel Q v v'.
Proof.
  intros H (E1 & E2 & K). split; [exact E1|]. split; [exact E2|]. destruct (v_kind v), (v_kind v'); auto.
  destruct K as (pre & more & E & F). exists pre, more. split; [exact E|]. eapply Forall2_impl'; [exact H|exact F].
Qed.

Lemma grown_inv l l' : grown l l' ->
  l_align l' = l_align l /\ l_var_off l' = l_var_off l /\ l_indices l' = l_indices l /\ l_fixed l' = l_fixed l /\
  Forall2 (vrel grown) (l_vars l) (l_vars l').
Proof.
  intros [a o ix fx vs vs' H]. cbn. repeat split. apply grown_vars_iff in H. eapply Forall2_impl'; [|exact H]. apply vrel_grown.
Qed.

Lemma field_offset_grown pf l l' k data n : grown l l' ->
  variable_field_offset pf l k data = Ret n -> variable_field_offset pf l' k data = Ret n.
Proof.
  intros G. apply grown_inv in G as (_ & E1 & _ & E2 & HV). unfold variable_field_offset. rewrite E1, E2.
  rewrite <- (Forall2_same_length _ _ _ HV). destruct (k <=? length (l_vars l)); [|discriminate]. apply offset_grown. apply Forall2_firstn.
  eapply Forall2_impl'; [|exact HV]. intros v v'. apply vrel_impl. intros x x' Hx. apply read_size_grown. exact Hx.
Qed.

Definition found_grown (r r' : layout * list byte * index) : Prop :=
  grown (fst (fst r)) (fst (fst r')) /\ snd (fst r') = snd (fst r) /\ snd r' = snd r.

Lemma navigate_grown pf l l' : grown l l' -> forall data q r, navigate pf l data q = Ret r ->
  exists r', navigate pf l' data q = Ret r' /\ found_grown r r'.
Proof.
  revert l l'. apply (grown_induction (fun l l' => forall data q r, navigate pf l data q = Ret r ->
    exists r', navigate pf l' data q = Ret r' /\ found_grown r r')).
  intros a o ix fx vs vs' G HV data q r H. cbn [navigate] in *.
  destruct (search ix q) as [i|i].
  - destruct (nth_error ix i) as [x|]; [|discriminate]. injection H as <-. eexists. split; [reflexivity|]. split; [exact G|]. auto.
  - destruct (nth_error ix i) as [x|]; [|discriminate]. destruct (is_prefix_of (i_path x) q); [|discriminate].
    inv_bind H. rewrite Ha. cbn [bind]. inv_bind H. rewrite (field_offset_grown _ _ _ _ _ _ G Ha0). cbn [bind].
    inv_bind H. rewrite Ha1. cbn [bind]. clear - HV H. revert H. generalize (i_var x) as k.
    induction HV as [|v v' vs vs' (_ & _ & HK) HV IH]; intros k H; destruct k as [|k]; cbn [pick] in *; try discriminate; [|apply IH; exact H].
    destruct (v_kind v) as [|ls], (v_kind v') as [|ls']; try contradiction; [discriminate|].
    destruct HK as (pre & more & -> & HF). eapply pick_grown; [exact HF| |exact H]. intros c c' Hc. apply Hc.
Qed.

Lemma fixed_of_grown l l' x : grown l l' -> fixed_of l' x = fixed_of l x.
Proof. intros G. apply grown_inv in G as (_ & _ & _ & E & _). unfold fixed_of. rewrite E. reflexivity. Qed.

Lemma get_primitive_grown pf l l' data p q z : grown l l' -> get_primitive pf l data p q = Ret z -> get_primitive pf l' data p q = Ret z.
Proof.
  intros G H. unfold get_primitive in *. inv_bind H. destruct (navigate_grown _ _ _ G _ _ _ Ha) as ([[l1' d'] x'] & -> & N).
  destruct a as [[l1 d] x]. destruct N as (N1 & N2 & N3). cbn [fst snd] in N1, N2, N3. subst d' x'. cbn [bind].
  rewrite (fixed_of_grown _ _ _ N1). exact H.
Qed.

Lemma get_case_tag_grown pf l l' data q z : grown l l' -> get_case_tag pf l data q = Ret z -> get_case_tag pf l' data q = Ret z.
Proof.
  intros G H. unfold get_case_tag in *. inv_bind H. destruct (navigate_grown _ _ _ G _ _ _ Ha) as ([[l1' d'] x'] & -> & N).
  destruct a as [[l1 d] x]. destruct N as (N1 & N2 & N3). cbn [fst snd] in N1, N2, N3. subst d' x'. cbn [bind].
  rewrite (fixed_of_grown _ _ _ N1). exact H.
Qed.

Lemma get_length_grown pf l l' data q z : grown l l' -> get_length pf l data q = Ret z -> get_length pf l' data q = Ret z.
Proof.
  intros G H. unfold get_length in *. inv_bind H. destruct (navigate_grown _ _ _ G _ _ _ Ha) as ([[l1' d'] x'] & -> & N).
  destruct a as [[l1 d] x]. destruct N as (N1 & N2 & N3). cbn [fst snd] in N1, N2, N3. subst d' x'. cbn [bind].
  rewrite (fixed_of_grown _ _ _ N1). exact H.
Qed.

Lemma get_bytes_grown pf l l' data q z : grown l l' -> get_bytes pf l data q = Ret z -> get_bytes pf l' data q = Ret z.
Proof.
  intros G H. unfold get_bytes in *. inv_bind H. destruct (navigate_grown _ _ _ G _ _ _ Ha) as ([[l1' d'] x'] & -> & N).
  destruct a as [[l1 d] x]. destruct N as (N1 & N2 & N3). cbn [fst snd] in N1, N2, N3. subst d' x'. cbn [bind].
  rewrite (fixed_of_grown _ _ _ N1). inv_bind H. rewrite Ha0. cbn [bind]. inv_bind H.
  rewrite (field_offset_grown _ _ _ _ _ _ N1 Ha1). cbn [bind]. inv_bind H. rewrite Ha2. cbn [bind].
  apply grown_inv in N1 as (_ & _ & _ & _ & HV). destruct (nth_error (l_vars l1) (i_var x)) as [v|] eqn:E; [|discriminate].
  destruct (Forall2_nth_l _ _ _ _ _ HV E) as (v' & -> & (_ & _ & K)).
  destruct (v_kind v), (v_kind v'); try contradiction; try discriminate. exact H.
Qed.
