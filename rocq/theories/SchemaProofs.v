(** * Records under a changed type *)

From Coq Require Import Permutation ZifyBool ZifyNat ZifyN.
From Verif Require Import Base BaseFacts UtilModel UtilProofs StrModel TypesModel TypesSpec TypesProofs.
From Verif Require Import MarshalModel MarshalSpec ListFacts LayoutProofs FieldProofs MarshalMore FormatSpec FormatLayout SchemaSpec.

(** ** The alignment of a type *)

Definition bits_width (b : bitf) : nat := match primitive_for_bits (b_bits b) with Ret p => prim_size p | _ => 16 end.

Definition need (u : unrolled) : nat :=
  Nat.max (Nat.max (greatest (map field_size (fst (fst u)))) (greatest (map bits_width (snd (fst u)))))
          (greatest (map vfield_align (snd u))).

Lemma greatest_pos l : 1 <= greatest l.
Proof. induction l as [|a l IH]; cbn [greatest fold_right]; [lia|]. fold (greatest l). lia. Qed.

Lemma greatest_cons a l : greatest (a :: l) = Nat.max a (greatest l).
Proof. reflexivity. Qed.

Lemma prim_size_width p : prim_size p = width p.
Proof. destruct p; reflexivity. Qed.

Lemma insert_head {A} (key : A -> nat) a l :
  match insert_desc (fun a b => key a <? key b) a l with x :: _ => key x | [] => 0 end =
  Nat.max (key a) (match l with x :: _ => key x | [] => 0 end).
Proof. destruct l as [|b l]; cbn [insert_desc]; [lia|]. destruct (Nat.ltb_spec (key a) (key b)); lia. Qed.

Lemma sort_head {A} (key : A -> nat) l : (forall x, In x l -> 1 <= key x) ->
  match sort_desc (fun a b => key a <? key b) l with x :: _ => key x | [] => 1 end = greatest (map key l).
Proof.
  intros Hp. assert (H : Nat.max 1 (match sort_desc (fun a b => key a <? key b) l with x :: _ => key x | [] => 0 end) = greatest (map key l)).
  { clear Hp. induction l as [|a l IH]; [reflexivity|]. cbn [sort_desc map]. rewrite greatest_cons, insert_head. lia. }
  destruct (sort_desc (fun a b => key a <? key b) l) as [|x m] eqn:E; [lia|].
  assert (In x l). { eapply Permutation_in; [apply (sort_desc_perm (fun a b => key a <? key b))|]. rewrite E. left. reflexivity. }
  specialize (Hp x H0). lia.
Qed.

Lemma field_size_pos f : 1 <= field_size f.
Proof. assert (P : forall p, 1 <= prim_size p) by (intros []; cbn; lia). unfold field_size. destruct (f_kind f); auto; lia. Qed.

Lemma kind_size_field f s : kind_size (f_kind f) = Ret s -> s = field_size f.
Proof. unfold field_size. destruct (f_kind f); cbn; congruence. Qed.

Lemma assign_head fs placed total : assign_offsets fs 0 = Ret (placed, total) ->
  forall fa, match placed with f :: _ => kind_size (f_kind f) | [] => Ret 1 end = Ret fa ->
  fa = match fs with f :: _ => field_size f | [] => 1 end.
Proof.
  destruct fs as [|f fs]; cbn [assign_offsets]; intros H fa Hf.
  - injection H as <- <-. congruence.
  - inv_bind H. inv_bind H. destruct a0 as [r tot]. injection H as <- <-. cbn [f_kind] in Hf. eapply kind_size_field. exact Hf.
Qed.

Definition csize (c : cont) : nat := prim_size (c_prim c).

Lemma cont_fields_sizes cs : forall k, map field_size (cont_fields k cs) = map csize cs.
Proof. induction cs as [|c cs IH]; intros k; cbn [cont_fields map]; [reflexivity|]. rewrite IH. reflexivity. Qed.

Lemma place_sizes cs : forall k n i o cs1, place cs k n = Some (i, o, cs1) -> map csize cs1 = map csize cs.
Proof.
  induction cs as [|c cs IH]; intros k n i o cs1 H; cbn [place] in H; [discriminate|].
  destruct (n <=? c_cap c); [injection H as <- <- <-; reflexivity|].
  destruct (place cs (S k) n) as [[[i' o'] cs']|] eqn:E; [|discriminate]. injection H as <- <- <-.
  cbn [map]. rewrite (IH _ _ _ _ _ E). reflexivity.
Qed.

Lemma place_ok cs : forall k n i o cs1, place cs k n = Some (i, o, cs1) -> Forall cont_ok cs ->
  Forall cont_ok cs1 /\ exists c, In c cs /\ n <= c_cap c.
Proof.
  induction cs as [|c cs IH]; intros k n i o cs1 H Hok; cbn [place] in H; [discriminate|].
  inversion Hok as [|? ? [H1 H2] Hok']; subst.
  destruct (Nat.leb_spec n (c_cap c)).
  - injection H as <- <- <-. split; [constructor; [|exact Hok']|exists c; split; [left; reflexivity|assumption]].
    split; cbn; [exact H1|]. lia.
  - destruct (place cs (S k) n) as [[[i' o'] cs']|] eqn:E; [|discriminate]. injection H as <- <- <-.
    destruct (IH _ _ _ _ _ E Hok') as (I1 & c' & I2 & I3). split; [constructor; [split; assumption|exact I1]|].
    exists c'. split; [right; exact I2|exact I3].
Qed.

Lemma greatest_in x l : In x l -> x <= greatest l.
Proof. induction l as [|a l IH]; intros H; [destruct H|]. rewrite greatest_cons. destruct H as [->|H]; [lia|]. specialize (IH H). lia. Qed.

Lemma alloc_sizes bs : forall cs r cs2, alloc bs cs = Ret (r, cs2) -> Forall cont_ok cs ->
  greatest (map csize cs2) = Nat.max (greatest (map csize cs)) (greatest (map bits_width bs)).
Proof.
  induction bs as [|b bs IH]; intros cs r cs2 H Hok; cbn [alloc] in H.
  - injection H as <- <-. cbn [map greatest fold_right]. pose proof (greatest_pos (map csize cs)). lia.
  - cbn [map]. rewrite greatest_cons. destruct (place cs 0 (b_bits b)) as [[[i o] cs1]|] eqn:E.
    + inv_bind H. destruct a as [r' cs']. injection H as <- <-.
      destruct (place_ok _ _ _ _ _ _ E Hok) as (Hok1 & c & Hc & Hn). rewrite (IH _ _ _ Ha Hok1), (place_sizes _ _ _ _ _ _ E).
      assert (bits_width b <= greatest (map csize cs)); [|lia].
      rewrite Forall_forall in Hok. destruct (Hok _ Hc) as [Hu Hs].
      assert (csize c <= greatest (map csize cs)) by (apply greatest_in, in_map, Hc).
      unfold bits_width. destruct (primitive_for_bits (b_bits b)) as [p| |] eqn:Ep.
      * enough (prim_size p <= csize c) by lia. unfold csize. rewrite (prim_size_width p), (prim_size_width (c_prim c)).
        eapply primitive_for_bits_least; [exact Ep|apply unsigned_iff; exact Hu|]. rewrite <- prim_size_width. lia.
      * exfalso. unfold primitive_for_bits in Ep. destruct (Nat.leb_spec (b_bits b) 128); [discriminate|].
        destruct (c_prim c); cbn in Hs; lia.
      * exfalso. unfold primitive_for_bits in Ep. destruct (Nat.leb_spec (b_bits b) 128); discriminate.
    + inv_bind H. inv_bind H. inv_bind H. destruct a1 as [r' cs']. injection H as <- <-.
      destruct (primitive_for_bits_spec _ _ Ha) as [U1 U2].
      rewrite (IH _ _ _ Ha1).
      * rewrite map_app, greatest_app. cbn [map]. rewrite greatest_cons. unfold bits_width at 2. rewrite Ha. unfold csize at 2. cbn [c_prim greatest fold_right].
        pose proof (greatest_pos (map csize cs)). lia.
      * apply Forall_app. split; [exact Hok|]. constructor; [|constructor]. split; cbn; [exact U1|].
        unfold usub in Ha0. destruct (Nat.leb_spec (b_bits b) (prim_size a * 8)); [|discriminate]. injection Ha0 as <-. lia.
Qed.

Lemma greatest_perm l l' : Permutation l l' -> greatest l = greatest l'.
Proof. induction 1; rewrite ?greatest_cons in *; lia. Qed.

Lemma finish_align u l : finish_layout u = Ret l -> (forall v, In v (snd u) -> 1 <= vfield_align v) -> l_align l = need u.
Proof.
  destruct u as [[fx bs] vs]. intros H Hv. unfold finish_layout in H. inv_bind H. destruct a as [bits conts].
  unfold allocate_bitfields in Ha. inv_bind Ha. destruct a as [r cs]. injection Ha as <- <-.
  inv_bind H. destruct a as [placed size]. inv_bind H. inv_bind H. inv_bind H. inv_bind H. destruct a2 as [vars ix]. injection H as <-.
  cbn [l_align]. rewrite (assign_head _ _ _ Ha _ Ha1). rewrite (sort_head field_size) by (intros; apply field_size_pos).
  rewrite (sort_head vfield_align) by exact Hv. unfold need. cbn [fst snd]. rewrite map_app, greatest_app, cont_fields_sizes.
  rewrite (alloc_sizes _ _ _ _ Ha0 (Forall_nil _)). rewrite (greatest_perm (map bits_width (sort_desc _ bs)) (map bits_width bs)).
  - cbn [map]. change (greatest []) with 1. pose proof (greatest_pos (map bits_width bs)). lia.
  - apply Permutation_map, sort_desc_perm.
Qed.

Lemma need_concat us : need (concat_unrolled us) = greatest (map need us).
Proof.
  induction us as [|u us IH]; [reflexivity|]. cbn [map]. rewrite greatest_cons, <- IH. unfold need, concat_unrolled. cbn [fst snd flat_map].
  rewrite !map_app, !greatest_app. lia.
Qed.

Lemma bits_tag n b : 0 < n -> b_bits b = Z.to_nat (required_bits (Z.of_nat (n - 1))) -> bits_width b = tag_width n.
Proof.
  intros Hn E. unfold bits_width, tag_width. rewrite E. unfold required_bits, leading_zeros64.
  destruct (Z.eqb_spec (Z.of_nat (n - 1)) 0) as [Hz|Hz].
  - assert (n = 1) by lia. subst n. reflexivity.
  - assert (L : forall k, (0 <= k)%Z -> (Z.of_nat n <= 2 ^ k <-> Z.log2 (Z.of_nat (n - 1)) < k)%Z).
    { intros k Hk. rewrite <- Z.log2_lt_pow2 by lia. lia. }
    pose proof (L 8 ltac:(lia))%Z as L8. pose proof (L 16 ltac:(lia))%Z as L16. pose proof (L 32 ltac:(lia))%Z as L32.
    pose proof (L 64 ltac:(lia))%Z as L64. pose proof (Z.log2_nonneg (Z.of_nat (n - 1))).
    set (g := Z.log2 (Z.of_nat (n - 1))) in *. clearbody g. set (m := Z.to_nat (64 - (63 - g))). assert (Em : Z.of_nat m = (g + 1)%Z) by lia. clearbody m.
    unfold primitive_for_bits.
    destruct (Z.leb_spec (Z.of_nat n) (2 ^ 8)); [destruct (Nat.leb_spec m 128); [|lia];
      destruct (Nat.ltb_spec 64 m), (Nat.ltb_spec 32 m), (Nat.ltb_spec 16 m), (Nat.ltb_spec 8 m); try lia; reflexivity|].
    destruct (Z.leb_spec (Z.of_nat n) (2 ^ 16)); [destruct (Nat.leb_spec m 128); [|lia];
      destruct (Nat.ltb_spec 64 m), (Nat.ltb_spec 32 m), (Nat.ltb_spec 16 m), (Nat.ltb_spec 8 m); try lia; reflexivity|].
    destruct (Z.leb_spec (Z.of_nat n) (2 ^ 32)); [destruct (Nat.leb_spec m 128); [|lia];
      destruct (Nat.ltb_spec 64 m), (Nat.ltb_spec 32 m), (Nat.ltb_spec 16 m), (Nat.ltb_spec 8 m); try lia; reflexivity|].
    destruct (Z.leb_spec (Z.of_nat n) (2 ^ 64)); [destruct (Nat.leb_spec m 128); [|lia];
      destruct (Nat.ltb_spec 64 m), (Nat.ltb_spec 32 m), (Nat.ltb_spec 16 m), (Nat.ltb_spec 8 m); try lia; reflexivity|].
    destruct (Nat.leb_spec m 128); [|reflexivity]. destruct (Nat.ltb_spec 64 m); [reflexivity|lia].
Qed.

(** The members of a product or enum, one by one. *)
Lemma members_map {A B C} (f : A -> path -> outcome B) (g : B -> C) (h : A -> C) l :
  (forall a q b, In a l -> f a q = Ret b -> g b = h a) ->
  forall q k r, members f l q k = Ret r -> map g r = map h l.
Proof.
  induction l as [|a l IH]; intros H q k r E; cbn [members] in E.
  - injection E as <-. reflexivity.
  - inv_bind E. inv_bind E. injection E as <-. cbn [map]. rewrite (H a _ _ (or_introl eq_refl) Ha).
    rewrite (IH (fun x q b Hx => H x q b (or_intror Hx)) _ _ _ Ha0). reflexivity.
Qed.

Lemma enum_align (cases : list layout) q n : Forall (fun c => 1 <= l_align c) cases ->
  vfield_align {| v_path := q; v_fixed := n; v_kind := VEnum cases |} = greatest (map l_align cases).
Proof.
  intros H. rewrite part_alignment_model; [reflexivity|]. intros cs c E Hc. cbn [v_kind] in E. injection E as <-.
  rewrite Forall_forall in H. exact (H c Hc).
Qed.

Lemma unroll_need t : forall q u, unroll_type t q = Ret u -> need u = type_alignment t /\ forall v, In v (snd u) -> 1 <= vfield_align v.
Proof.
  assert (POS : forall us : list unrolled, (forall u, In u us -> forall v, In v (snd u) -> 1 <= vfield_align v) ->
            forall v, In v (snd (concat_unrolled us)) -> 1 <= vfield_align v).
  { intros us H v Hv. unfold concat_unrolled in Hv. cbn [snd] in Hv. apply in_flat_map in Hv as (u & Hu & Hv). exact (H u Hu v Hv). }
  induction t using ty_ind'; intros q u H0; cbn [unroll_type] in H0.
  - injection H0 as <-. split; [reflexivity|intros v []].
  - injection H0 as <-. split; [destruct p; reflexivity|intros v []].
  - injection H0 as <-. split; [reflexivity|]. intros v [<-|[]]. cbn. lia.
  - inv_check H0. inv_bind H0. injection H0 as <-. cbn [type_alignment]. rewrite need_concat. split.
    + f_equal. eapply (members_map unroll_type need type_alignment); [|exact Ha].
      intros t q' b Ht Hb. rewrite Forall_forall in H. exact (proj1 (H t Ht _ _ Hb)).
    + apply POS. intros x Hx. apply In_nth_error in Hx as [i Hx].
      destruct (members_nth _ _ _ _ _ _ _ Ha Hx) as (t & Ht & Hu). rewrite Forall_forall in H.
      exact (proj2 (H t (nth_error_In _ _ Ht) _ _ Hu)).
  - inv_check H0. inv_bind H0. injection H0 as <-. cbn [type_alignment]. rewrite need_concat. split.
    + f_equal. eapply (members_map _ need (fun f => type_alignment (snd f))); [|exact Ha].
      intros f q' b Hf Hb. rewrite Forall_forall in H. exact (proj1 (H f Hf _ _ Hb)).
    + apply POS. intros x Hx. apply In_nth_error in Hx as [i Hx].
      destruct (members_nth _ _ _ _ _ _ _ Ha Hx) as (f & Hf & Hu). rewrite Forall_forall in H.
      exact (proj2 (H f (nth_error_In _ _ Hf) _ _ Hu)).
  - inv_check H0. rename Hc into Hlen. inv_bind H0. injection H0 as <-. rewrite Forall_forall in H.
    assert (E : map l_align a = map (fun c => type_alignment (snd c)) cs).
    { eapply members_map; [|exact Ha]. intros c q' l Hc Hl. cbv beta in Hl. inv_bind Hl.
      destruct (H c Hc _ _ Ha0) as [H1 H2]. rewrite <- H1. apply finish_align; assumption. }
    assert (P : Forall (fun c => 1 <= l_align c) a).
    { rewrite Forall_forall. intros c Hc. apply In_nth_error in Hc as [i Hc].
      destruct (members_nth _ _ _ _ _ _ _ Ha Hc) as (lt & Ht & Hu). cbv beta in Hu. inv_bind Hu.
      destruct (H lt (nth_error_In _ _ Ht) _ _ Ha0) as [_ H2]. rewrite (finish_align _ _ Hu H2). unfold need. pose proof (greatest_pos (map vfield_align (snd a0))). lia. }
    split.
    + unfold need. cbn [fst snd map]. rewrite !greatest_cons. change (greatest []) with 1. rewrite enum_align by exact P.
      rewrite (bits_tag (length cs)) by (cbn [b_bits]; try reflexivity; lia). cbn [type_alignment]. rewrite E.
      pose proof (greatest_pos (map (fun c => type_alignment (snd c)) cs)). lia.
    + intros v [<-|[]]. rewrite enum_align by exact P. apply greatest_pos.
Qed.

Lemma layout_alignment t q l : calculate_layout t q = Ret l -> l_align l = type_alignment t.
Proof.
  unfold calculate_layout. intros H. inv_bind H. destruct (unroll_need _ _ _ Ha) as [<- Hv]. apply finish_align; assumption.
Qed.
