(** * Changing one number of an encoded record *)

From Coq Require Import Permutation ZifyBool ZifyNat ZifyN.
From Verif Require Import Base BaseFacts UtilModel UtilSpec UtilProofs StrModel TypesModel TypesSpec TypesProofs.
From Verif Require Import MarshalModel MarshalSpec ListFacts LayoutProofs LayoutCover FieldProofs MarshalProofs MarshalMore MarshalTop FormatSpec FormatBits ValSource PatchSpec.

(** ** The two sources *)

(** The sources differ in the number at [q] only, and the second one has [z] there. *)
Definition differ (src src' : source) (q : path) (z : Z) : Prop :=
  (forall r, src_tag src' r = src_tag src r) /\ (forall r, src_len src' r = src_len src r) /\
  (forall r, src_bytes src' r = src_bytes src r) /\ (forall p r, r <> q -> src_prim src' p r = src_prim src p r) /\
  forall p, src_prim src' p q = Ret z.

(** Answers of a value at a path: the number, the case or the string there. *)
Definition shape (v : option val) : option (option nat * option (list byte)) :=
  match v with
  | Some (VCase k _) => Some (Some k, None)
  | Some (VStr bs) => Some (None, Some bs)
  | _ => None
  end.
Definition number (v : option val) : option Z := match v with Some (VPrim z) => Some z | _ => None end.

Lemma changed_at t v r p z v' : changed t v r p z v' ->
  (forall s, shape (val_at v' s) = shape (val_at v s)) /\
  (forall s, s <> r -> number (val_at v' s) = number (val_at v s)) /\ val_at v' r = Some (VPrim z).
Proof.
  induction 1 as [p z0 z|ts vs k r p z t v v' vs' Ht Hv Hc (IH1 & IH2 & IH3) (R1 & R2 & R3)
    |fs vs k r p z f v v' vs' Ht Hv Hc (IH1 & IH2 & IH3) (R1 & R2 & R3)|cs k r p z l t v v' Ht Hc (IH1 & IH2 & IH3)].
  - split; [intros [|i s]; reflexivity|]. split; [intros [|i s] Hs; [congruence|reflexivity]|reflexivity].
  - split; [|split].
    + intros [|i s]; cbn [val_at]; [reflexivity|]. destruct (Nat.eq_dec i k) as [->|Hi]; [rewrite R2, Hv; apply IH1|].
      rewrite R3 by exact Hi. reflexivity.
    + intros [|i s] Hs; cbn [val_at]; [reflexivity|]. destruct (Nat.eq_dec i k) as [->|Hi].
      * rewrite R2, Hv. apply IH2. congruence.
      * rewrite R3 by exact Hi. reflexivity.
    + cbn [val_at]. rewrite R2. exact IH3.
  - split; [|split].
    + intros [|i s]; cbn [val_at]; [reflexivity|]. destruct (Nat.eq_dec i k) as [->|Hi]; [rewrite R2, Hv; apply IH1|].
      rewrite R3 by exact Hi. reflexivity.
    + intros [|i s] Hs; cbn [val_at]; [reflexivity|]. destruct (Nat.eq_dec i k) as [->|Hi].
      * rewrite R2, Hv. apply IH2. congruence.
      * rewrite R3 by exact Hi. reflexivity.
    + cbn [val_at]. rewrite R2. exact IH3.
  - split; [|split].
    + intros [|i s]; cbn [val_at]; [reflexivity|]. destruct (i =? k); [apply IH1|reflexivity].
    + intros [|i s] Hs; cbn [val_at]; [reflexivity|]. destruct (Nat.eqb_spec i k) as [->|]; [|reflexivity].
      apply IH2. congruence.
    + cbn [val_at]. rewrite Nat.eqb_refl. exact IH3.
Qed.

Lemma changed_differ t v r p z v' : changed t v r p z v' -> differ (val_source v) (val_source v') r z.
Proof.
  intros H. destruct (changed_at _ _ _ _ _ _ H) as (H1 & H2 & H3). unfold differ, val_source. cbn.
  split; [|split; [|split; [|split]]].
  - intros s. specialize (H1 s). unfold shape in H1.
    destruct (val_at v s) as [[]|], (val_at v' s) as [[]|]; try discriminate; try reflexivity; congruence.
  - intros s. specialize (H1 s). unfold shape in H1.
    destruct (val_at v s) as [[]|], (val_at v' s) as [[]|]; try discriminate; try reflexivity; congruence.
  - intros s. specialize (H1 s). unfold shape in H1.
    destruct (val_at v s) as [[]|], (val_at v' s) as [[]|]; try discriminate; try reflexivity; congruence.
  - intros p' s Hs. specialize (H2 s Hs). unfold number in H2.
    destruct (val_at v s) as [[]|], (val_at v' s) as [[]|]; try discriminate; try reflexivity; congruence.
  - intros p'. rewrite H3. reflexivity.
Qed.

(** Where the number is: among the fixed fields of the record, or in the payload of one of its enums. *)
Lemma changed_split t v r p z v' : changed t v r p z v' ->
  reaches t r (TPrim p) \/
  exists r1 k r2 cs lb u w w', r = r1 ++ k :: r2 /\ reaches t r1 (TEnum cs) /\ nth_error cs k = Some (lb, u) /\
    val_at v r1 = Some (VCase k w) /\ changed u w r2 p z w'.
Proof.
  induction 1 as [p z0 z|ts vs k r p z t v v' vs' Ht Hv Hc IH R|fs vs k r p z f v v' vs' Ht Hv Hc IH R|cs k r p z l t v v' Ht Hc IH].
  - left. constructor.
  - destruct IH as [IH|(r1 & k1 & r2 & cs & lb & u & w & w' & E & IH1 & IH2 & IH3 & IH4)].
    + left. econstructor; eassumption.
    + right. exists (k :: r1), k1, r2, cs, lb, u, w, w'. split; [rewrite E; reflexivity|]. split; [econstructor; eassumption|].
      split; [exact IH2|]. split; [cbn [val_at]; rewrite Hv; exact IH3|exact IH4].
  - destruct IH as [IH|(r1 & k1 & r2 & cs & lb & u & w & w' & E & IH1 & IH2 & IH3 & IH4)].
    + left. econstructor; eassumption.
    + right. exists (k :: r1), k1, r2, cs, lb, u, w, w'. split; [rewrite E; reflexivity|]. split; [econstructor; eassumption|].
      split; [exact IH2|]. split; [cbn [val_at]; rewrite Hv; exact IH3|exact IH4].
  - right. exists [], k, r, cs, l, t, v, v'. split; [reflexivity|]. split; [constructor|]. split; [exact Ht|].
    split; [reflexivity|exact Hc].
Qed.

(** ** Records without the number *)

Definition misses (q : path) (l : layout) : Prop := forall f, In f (l_fixed l) -> f_path f <> q.

Definition image_same_P (src' : source) (q : path) (l : layout) (old new : list byte) (n : nat) : Prop :=
  everywhere (misses q) l -> image src' l old new n.
Definition parts_same_P (src' : source) (q : path) (vs : list (vfield layout)) (old new : list byte) (o o' : nat) : Prop :=
  (forall v cases c, In v vs -> v_kind v = VEnum cases -> In c cases -> everywhere (misses q) c) ->
  parts src' vs old new o o'.

Lemma number_same src src' q z f y : differ src src' q z -> f_path f <> q -> number_for src f y -> number_for src' f y.
Proof.
  intros (D1 & D2 & D3 & D4 & D5) Hq H. unfold number_for in *. destruct (f_kind f).
  - rewrite D4 by exact Hq. exact H.
  - rewrite D2. exact H.
  - exact H.
  - rewrite D1. exact H.
Qed.

Lemma image_same_step src src' q z l old new o n : differ src src' q z ->
  (forall f, In f (l_fixed l) -> field_at src new f) ->
  (forall x, x < 8 * l_var_off l -> (forall f, In f (l_fixed l) -> ~ in_field f x) -> bit_of new x = bit_of old x) ->
  parts_same_P src' q (l_vars l) old new (l_var_off l) o ->
  next_multiple (l_align l) o n -> (forall i, o <= i < n -> nth_error new i = nth_error old i) ->
  image_same_P src' q l old new n.
Proof.
  intros D Hf Hu IH Hn Ht He. inversion He as [? Hl Hc]; subst. apply im_intro with (o := o); try assumption.
  - intros f Hff. destruct (Hf f Hff) as (y & Hy & Hb). exists y. split; [|exact Hb].
    eapply number_same; [exact D|apply Hl; exact Hff|exact Hy].
  - apply IH. exact Hc.
Qed.

Lemma parts_same_string src src' q z v vs old new o o' bs : differ src src' q z ->
  v_kind v = VString -> src_bytes src (v_path v) = Ret bs ->
  (forall i, i < length bs -> nth_error new (o + i) = nth_error bs i) ->
  parts_same_P src' q vs old new (o + length bs) o' -> parts_same_P src' q (v :: vs) old new o o'.
Proof.
  intros (D1 & D2 & D3 & D4 & D5) Hk Hb Hn IH Hc. eapply ps_string; [exact Hk|rewrite D3; exact Hb|exact Hn|].
  apply IH. intros w cases c Hw. apply Hc. right. exact Hw.
Qed.

Lemma parts_same_case src src' q z v vs old new o o' cases k c n : differ src src' q z ->
  v_kind v = VEnum cases -> src_tag src (v_path v) = Ret k -> nth_error cases k = Some c ->
  image_same_P src' q c (skipn o old) (skipn o new) n ->
  parts_same_P src' q vs old new (o + n) o' -> parts_same_P src' q (v :: vs) old new o o'.
Proof.
  intros (D1 & D2 & D3 & D4 & D5) Hk Ht Hc IHi IH Hcc. eapply ps_case; [exact Hk|rewrite D1; exact Ht|exact Hc| |].
  - apply IHi. eapply Hcc; [left; reflexivity|exact Hk|eapply nth_error_In; exact Hc].
  - apply IH. intros w cs d Hd. apply Hcc. right. exact Hd.
Qed.

Lemma image_same src src' q z l old new n : differ src src' q z -> image src l old new n -> image_same_P src' q l old new n.
Proof.
  intros D. apply (image_mind src (image_same_P src' q) (parts_same_P src' q)); intros.
  - eapply image_same_step; eassumption.
  - intros _. constructor.
  - eapply parts_same_string; eassumption.
  - eapply parts_same_case; eassumption.
Qed.

Lemma parts_same src src' q z vs old new o o' : differ src src' q z -> parts src vs old new o o' ->
  parts_same_P src' q vs old new o o'.
Proof.
  intros D. apply (parts_mind src (image_same_P src' q) (parts_same_P src' q)); intros.
  - eapply image_same_step; eassumption.
  - intros _. constructor.
  - eapply parts_same_string; eassumption.
  - eapply parts_same_case; eassumption.
Qed.

(** All fields of a layout, at any depth, are below its path. *)
Lemma below_path t : forall q l, calculate_layout t q = Ret l -> everywhere (fun l' => forall f, In f (l_fixed l') -> extends q (f_path f)) l.
Proof.
  induction t as [t IH] using ty_payload_ind. intros q l H. pose proof (calculate_layout_ok _ _ _ H) as Hok. constructor.
  - intros f Hf. pose proof (lo_kinds _ _ Hok) as Hk. rewrite Forall_forall in Hk. destruct (Hk f Hf) as (k & Hin & _).
    apply (flat_extends t q _ Hin).
  - intros v cases c Hv Hk Hc. destruct (lay_ok_enum _ _ _ _ _ Hok Hv Hk Hc) as (cs & cse & i & H1 & H2 & _ & H4).
    specialize (IH _ _ _ _ H1 (nth_error_In _ _ H2) _ _ H4). apply (everywhere_impl _ _) with (2 := IH).
    intros l' Hl' f Hf. destruct (Hl' f Hf) as [s Hs]. destruct (flat_extends t q _ H1) as [s' Hs']. cbn [fst] in Hs'.
    exists (s' ++ i :: s). rewrite Hs, Hs', <- !app_assoc. reflexivity.
Qed.

Lemma calculated_misses t q0 l q : calculate_layout t q0 = Ret l -> ~ extends q0 q -> everywhere (misses q) l.
Proof.
  intros H Hq. apply (everywhere_impl _ _) with (2 := below_path t q0 l H). intros l' Hl' f Hf E. apply Hq.
  rewrite <- E. apply Hl'. exact Hf.
Qed.

Lemma calculated_inside t q l : calculate_layout t q = Ret l -> everywhere fields_inside l.
Proof. apply everywhere_calculated. intros t' q' l' H'. exact (lo_place _ _ (calculate_layout_ok _ _ _ H')). Qed.

(** ** The parts *)

Lemma skipn_write (a : list byte) o x b : o + x + length b <= length a -> skipn o (write a (o + x) b) = write (skipn o a) x b.
Proof.
  intros H. apply list_ext. intros i. rewrite nth_error_skipn, !nth_error_write by (rewrite ?skipn_length; lia).
  rewrite nth_error_skipn. replace ((o + x <=? o + i) && (o + i <? o + x + length b)) with ((x <=? i) && (i <? x + length b)) by lia.
  destruct ((x <=? i) && (i <? x + length b)); f_equal; lia.
Qed.

Lemma patch_parts src src' q z b cases k c v vs2 : differ src src' q z ->
  v_kind v = VEnum cases -> src_tag src (v_path v) = Ret k -> nth_error cases k = Some c ->
  (forall old new n, image src c old new n -> n <= length new ->
     exists x, x + length b <= n /\ image src' c old (write new x b) n) ->
  forall vs1,
  (forall w cs d, In w (vs1 ++ vs2) -> v_kind w = VEnum cs -> In d cs -> everywhere (misses q) d /\ everywhere fields_inside d) ->
  forall old new o o', parts src (vs1 ++ v :: vs2) old new o o' -> o' <= length new ->
  exists x, o <= x /\ x + length b <= o' /\ parts src' (vs1 ++ v :: vs2) old (write new x b) o o'.
Proof.
  intros D Hk Ht Hc HI. induction vs1 as [|w vs1 IH]; intros Hd old new o o' H Hlen; cbn [app] in *.
  - inversion H as [|? ? ? ? ? ? bs Hk' Hb Hn Hp|? ? ? ? ? ? cases' k' c' m Hk' Ht' Hc' Hi Hp]; subst; [congruence|].
    assert (cases' = cases) as -> by congruence. assert (k' = k) as -> by congruence. assert (c' = c) as -> by congruence.
    pose proof (proj2 (image_ge_parts src) _ _ _ _ _ Hp) as Hge.
    destruct (HI _ _ _ Hi) as (x & Hx & Hi'); [rewrite skipn_length; lia|].
    exists (o + x). split; [lia|]. split; [lia|]. eapply ps_case; [exact Hk| |exact Hc| |].
    + destruct D as (D1 & _). rewrite D1. exact Ht.
    + rewrite skipn_write by lia. exact Hi'.
    + apply (parts_same _ _ _ _ _ _ _ _ _ D) in Hp.
      assert (Hp' : parts src' vs2 old new (o + m) o') by (apply Hp; intros; eapply Hd; eassumption).
      apply (parts_ext _ _ _ _ _ _ Hp'); [intros; eapply Hd; eassumption|reflexivity|].
      intros i Hi0. rewrite nth_error_write by lia. replace ((o + x <=? i) && (i <? o + x + length b)) with false by lia. reflexivity.
  - assert (Hd' := fun w' cs d Hw => Hd w' cs d (or_intror Hw)).
    inversion H as [|? ? ? ? ? ? bs Hk' Hb Hn Hp|? ? ? ? ? ? cases' k' c' m Hk' Ht' Hc' Hi Hp]; subst.
    + destruct (IH Hd' _ _ _ _ Hp Hlen) as (x & Hx1 & Hx2 & Hx3). exists x. split; [lia|]. split; [exact Hx2|].
      destruct D as (D1 & D2 & D3 & _).
      eapply ps_string; [exact Hk'|rewrite D3; exact Hb| |exact Hx3].
      intros i Hi. rewrite nth_error_write by lia. replace ((x <=? o + i) && (o + i <? x + length b)) with false by lia.
      apply Hn. exact Hi.
    + destruct (IH Hd' _ _ _ _ Hp Hlen) as (x & Hx1 & Hx2 & Hx3). exists x. split; [lia|]. split; [exact Hx2|].
      destruct (Hd w cases' c' (or_introl eq_refl) Hk' (nth_error_In _ _ Hc')) as [Hm Hin].
      eapply ps_case; [exact Hk'|rewrite (proj1 D); exact Ht'|exact Hc'| |exact Hx3].
      assert (Hi' := image_same _ _ _ _ _ _ _ _ D Hi Hm).
      apply (image_ext _ _ _ _ _ Hi' Hin); [intros i Hi0; reflexivity|].
      intros i Hi0. rewrite !nth_error_skipn, nth_error_write by lia.
      replace ((x <=? o + i) && (o + i <? x + length b)) with false by lia. reflexivity.
Qed.

(** ** The record *)

Lemma elements_diverge t q e f : In e (flat t q) -> In f (flat t q) -> fst e <> fst f -> diverge (fst e) (fst f).
Proof.
  intros He Hf Hn. destruct (ForallOrdPairs_In (flat_antichain t q) _ _ He Hf) as [->|[H|H]]; [congruence|exact H|].
  destruct H. split; assumption.
Qed.

Lemma extends_comparable (a b q : path) : extends a q -> extends b q -> extends a b \/ extends b a.
Proof.
  intros [s Hs] [u Hu]. subst q. revert b u Hu. induction a as [|x a IH]; intros [|y b] u Hu.
  - left. exists []. reflexivity.
  - left. eexists. reflexivity.
  - right. eexists. reflexivity.
  - cbn [app] in Hu. injection Hu as -> Hu. destruct (IH _ _ Hu) as [[w Hw]|[w Hw]].
    + left. exists w. rewrite Hw. reflexivity.
    + right. exists w. rewrite Hw. reflexivity.
Qed.

(** The payloads of the enums whose path does not lead to [q]. *)
Lemma other_parts t pre l q e ke w cs d :
  calculate_layout t pre = Ret l -> In (e, ke) (flat t pre) -> extends e q ->
  In w (l_vars l) -> v_path w <> e -> v_kind w = VEnum cs -> In d cs ->
  everywhere (misses q) d /\ everywhere fields_inside d.
Proof.
  intros Hcalc He Hq Hw Hne Hk Hd.
  destruct (lay_ok_enum _ _ _ _ _ (calculate_layout_ok _ _ _ Hcalc) Hw Hk Hd) as (es & cse & i & H1 & H2 & _ & H4).
  split; [|eapply calculated_inside; exact H4]. eapply calculated_misses; [exact H4|]. intros Hx.
  assert (Hwq : extends (v_path w) q).
  { destruct Hx as [s Hs]. exists (i :: s). rewrite Hs, <- app_assoc. reflexivity. }
  destruct (elements_diverge t pre _ _ He H1) as [G1 G2]; [cbn; congruence|]. cbn [fst] in G1, G2.
  destruct (extends_comparable _ _ _ Hq Hwq); contradiction.
Qed.

Lemma NoDup_fst_fun {A B} (l : list (A * B)) : NoDup (map fst l) -> forall a b c, In (a, b) l -> In (a, c) l -> b = c.
Proof.
  intros H a b c H1 H2. assert (E : (a, b) = (a, c)) by (eapply (NoDup_map_inj fst); eauto). congruence.
Qed.

Lemma patch_image src src' p z t : forall pre r l v v' old new n,
  calculate_layout t pre = Ret l -> changed t v r p z v' ->
  (forall s k w, val_at v s = Some (VCase k w) -> src_tag src (pre ++ s) = Ret k) ->
  differ src src' (pre ++ r) z -> image src l old new n -> n <= length new ->
  exists x, x + width p <= n /\ image src' l old (write new x (le_bytes (width p) z)) n /\
    (reaches t r (TPrim p) -> exists f, In f (l_fixed l) /\ f_path f = pre ++ r /\ f_kind f = FPrim p /\ x = f_offset f).
Proof.
  induction t as [t IHt] using ty_payload_ind. intros pre r l v v' old new n Hcalc Hch Htag D Hi Hlen.
  pose proof (calculate_layout_ok _ _ _ Hcalc) as Hok.
  pose proof (calculated_inside _ _ _ Hcalc) as Hin. inversion Hin as [? Hin1 Hin2]; subst.
  inversion Hi as [? ? ? o ? Hf Hu Hp Hn Ht]; subst.
  pose proof (proj2 (image_ge_parts src) _ _ _ _ _ Hp) as Hge. assert (Hon : o <= n) by apply Hn.
  assert (Lb : length (le_bytes (width p) z) = width p) by apply le_bytes_length.
  destruct (changed_split _ _ _ _ _ _ Hch) as [Hr|(r1 & k & r2 & cs & lb & u & w & w' & E & Hr & Hcs & Hv & Hch')].
  - (* the number is a fixed field *)
    assert (Hfl : In (pre ++ r, KPrim p) (flat t pre)) by (apply flat_reaches; exists r, (TPrim p); auto).
    destruct (index_entry t pre l Hcalc _ _ Hfl) as (_ & _ & f & _ & _ & _ & _ & Hff & Ef & Hkr).
    assert (Ek : f_kind f = FPrim p) by (destruct (f_kind f); cbn in Hkr; try contradiction; congruence). clear Hkr.
    exists (f_offset f). unfold fields_inside in Hin1. rewrite Forall_forall in Hin1.
    assert (Hw : f_offset f + width p <= l_var_off l).
    { pose proof (proj1 (Hin1 f Hff)) as Hx. unfold field_size in Hx. rewrite Ek, width_size in Hx. exact Hx. }
    assert (Hfb : first_bit f = 8 * f_offset f) by (unfold first_bit; rewrite Ek; reflexivity).
    assert (Hbc : bit_count f = 8 * width p) by (unfold bit_count, field_width; rewrite Ek; reflexivity).
    assert (Hout : forall x, ~ in_field f x -> bit_of (write new (f_offset f) (le_bytes (width p) z)) x = bit_of new x).
    { intros x Hx. unfold in_field in Hx. rewrite bit_of_write by lia.
      replace ((8 * f_offset f <=? x) && (x <? 8 * (f_offset f + length (le_bytes (width p) z)))) with false by lia. reflexivity. }
    split; [lia|]. split; [|intros _; exists f; auto].
    apply im_intro with (o := o).
    + intros g Hg. destruct (list_eq_dec Nat.eq_dec (f_path g) (f_path f)) as [Eg|Hne].
      * assert (g = f) as ->.
        { eapply (NoDup_map_inj f_path); [|exact Hg|exact Hff|exact Eg].
          eapply Permutation_NoDup; [symmetry; exact (lo_paths _ _ Hok)|apply flat_nodup]. }
        exists z. split; [unfold number_for; rewrite Ek, Ef; apply D|].
        intros j Hj. rewrite bit_of_write by lia. rewrite Lb.
        replace ((8 * f_offset f <=? first_bit f + j) && (first_bit f + j <? 8 * (f_offset f + width p))) with true by lia.
        rewrite le_bytes_bit by lia. do 2 f_equal. lia.
      * destruct (Hf g Hg) as (y & Hy & Hb). exists y. split; [eapply number_same; [exact D|congruence|exact Hy]|].
        intros j Hj. rewrite Hout; [apply Hb; exact Hj|].
        assert (Hap : bits_apart g f).
        { destruct (ForallOrdPairs_In (lo_disj _ _ Hok) _ _ Hg Hff) as [->|[H|H]]; [congruence| |].
          - eapply no_overlap_apart; [apply Hin1; exact Hg|apply Hin1; exact Hff|exact H].
          - intros x H1 H2. revert H1. revert x H2. eapply no_overlap_apart; [apply Hin1; exact Hff|apply Hin1; exact Hg|exact H]. }
        apply Hap. unfold in_field. lia.
    + intros x Hx Hnf. rewrite Hout by (apply Hnf; exact Hff). apply Hu; assumption.
    + assert (Hp' : parts src' (l_vars l) old new (l_var_off l) o).
      { apply (parts_same _ _ _ _ _ _ _ _ _ D Hp). intros w cs d Hw' Hk Hd.
        apply (other_parts t pre l (pre ++ r) _ _ w cs d Hcalc Hfl); try assumption; [exists []; symmetry; apply app_nil_r|].
        destruct (lay_ok_enum _ _ _ _ _ Hok Hw' Hk Hd) as (es & _ & _ & H1 & _). intros Ev. rewrite Ev in H1.
        pose proof (NoDup_fst_fun _ (flat_nodup t pre) _ _ _ Hfl H1). discriminate. }
      apply (parts_ext _ _ _ _ _ _ Hp'); [exact Hin2|reflexivity|].
      intros i Hi0. rewrite nth_error_write by lia.
      replace ((f_offset f <=? i) && (i <? f_offset f + length (le_bytes (width p) z))) with false by lia. reflexivity.
    + exact Hn.
    + intros i Hi0. rewrite nth_error_write by lia.
      replace ((f_offset f <=? i) && (i <? f_offset f + length (le_bytes (width p) z))) with false by lia. apply Ht. exact Hi0.
  - (* the number is in a payload *)
    assert (Hfl : In (pre ++ r1, KTag cs) (flat t pre)) by (apply flat_reaches; exists r1, (TEnum cs); auto).
    destruct (layout_vars t pre l Hcalc) as (Hnd & Hvk & Hcov).
    specialize (Hcov r1 (TEnum cs) Hr (or_intror (ex_intro _ cs eq_refl))). apply in_map_iff in Hcov as (vf & Evf & Hvf).
    destruct (Hvk vf Hvf) as (r1' & Er1 & [[Hr' Hk']|(cs' & ls & Hr' & Hk' & Hlen' & Hls)]).
    { assert (Hx : In (pre ++ r1', KStr) (flat t pre)) by (apply flat_reaches; exists r1', TString; auto).
      rewrite <- Er1, Evf in Hx. pose proof (NoDup_fst_fun _ (flat_nodup t pre) _ _ _ Hfl Hx). discriminate. }
    assert (Hx : In (pre ++ r1', KTag cs') (flat t pre)) by (apply flat_reaches; exists r1', (TEnum cs'); auto).
    rewrite <- Er1, Evf in Hx. pose proof (NoDup_fst_fun _ (flat_nodup t pre) _ _ _ Hfl Hx) as Ecs. injection Ecs as <-. clear Hx.
    assert (Hkl : k < length ls) by (rewrite Hlen'; apply nth_error_Some; congruence).
    destruct (nth_error ls k) as [c|] eqn:Ec; [|apply nth_error_None in Ec; lia].
    destruct (Hls k c Ec) as (lb' & u' & Hcs' & Hcalc'). assert (u' = u) as -> by congruence. clear Hcs' lb'.
    assert (Eq : pre ++ r = (v_path vf ++ [k]) ++ r2) by (rewrite E, Evf, <- !app_assoc; reflexivity).
    assert (HI : forall old new n, image src c old new n -> n <= length new ->
       exists x, x + length (le_bytes (width p) z) <= n /\ image src' c old (write new x (le_bytes (width p) z)) n).
    { intros old1 new1 n1 Hi1 Hl1.
      destruct (IHt _ _ _ (lb, u) Hfl (nth_error_In _ _ Hcs) (v_path vf ++ [k]) r2 c w w' old1 new1 n1) as (x & Hx1 & Hx2 & _);
        try assumption.
      - intros s j y Hy. replace ((v_path vf ++ [k]) ++ s) with (pre ++ (r1 ++ k :: s)) by (rewrite Evf, <- !app_assoc; reflexivity).
        apply (Htag _ _ y). rewrite (val_at_app _ _ _ _ Hv). cbn [val_at]. rewrite Nat.eqb_refl. exact Hy.
      - rewrite <- Eq. exact D.
      - exists x. rewrite Lb. auto. }
    apply in_split in Hvf as (vs1 & vs2 & Evs).
    assert (Hoth : forall w cs d, In w (vs1 ++ vs2) -> v_kind w = VEnum cs -> In d cs ->
                   everywhere (misses (pre ++ r)) d /\ everywhere fields_inside d).
    { intros w0 cs0 d Hw0 Hk0 Hd0. apply (other_parts t pre l (pre ++ r) _ _ w0 cs0 d Hcalc Hfl); try assumption.
      - exists (k :: r2). rewrite E, <- app_assoc. reflexivity.
      - rewrite Evs. apply in_app_or in Hw0. apply in_or_app. destruct Hw0; [left|right; right]; assumption.
      - rewrite <- Evf. intros E'. rewrite Evs, map_app in Hnd. cbn [map] in Hnd. apply NoDup_remove_2 in Hnd. apply Hnd.
        rewrite <- E', <- map_app. apply in_map. exact Hw0. }
    rewrite Evs in Hp.
    destruct (patch_parts src src' (pre ++ r) z (le_bytes (width p) z) ls k c vf vs2 D Hk') with (vs1 := vs1) (old := old)
      (new := new) (o := l_var_off l) (o' := o) as (x & Hx1 & Hx2 & Hx3); try assumption; [|lia|].
    { rewrite Evf. apply (Htag _ _ w). exact Hv. }
    rewrite Lb in Hx2. exists x. split; [lia|]. split.
    + unfold fields_inside in Hin1. rewrite Forall_forall in Hin1.
      assert (Hout : forall y, y < 8 * l_var_off l -> bit_of (write new x (le_bytes (width p) z)) y = bit_of new y).
      { intros y Hy. rewrite bit_of_write by lia.
        replace ((8 * x <=? y) && (y <? 8 * (x + length (le_bytes (width p) z)))) with false by lia. reflexivity. }
      apply im_intro with (o := o).
      * intros g Hg. destruct (Hf g Hg) as (y & Hy & Hb). exists y. split.
        -- eapply number_same; [exact D| |exact Hy]. intros Eg.
           pose proof (lo_kinds _ _ Hok) as Hkk. rewrite Forall_forall in Hkk. destruct (Hkk g Hg) as (kg & Hgin & _).
           rewrite Eg in Hgin. destruct (elements_diverge t pre _ _ Hfl Hgin) as [G _]; cbn [fst].
           ++ rewrite E. intros E'. apply app_inv_head in E'. apply (f_equal (@length nat)) in E'.
              rewrite app_length in E'. cbn in E'. lia.
           ++ apply G. exists (k :: r2). cbn [fst]. rewrite E, <- app_assoc. reflexivity.
        -- intros j Hj. rewrite Hout; [apply Hb; exact Hj|]. apply (in_field_inside _ g); [apply Hin1; exact Hg|unfold in_field; lia].
      * intros y Hy Hnf. rewrite Hout by exact Hy. apply Hu; assumption.
      * rewrite Evs. exact Hx3.
      * exact Hn.
      * intros i Hi0. rewrite nth_error_write by lia.
        replace ((x <=? i) && (i <? x + length (le_bytes (width p) z))) with false by lia. apply Ht. exact Hi0.
    + intros Hr0. exfalso. assert (Hx : In (pre ++ r, KPrim p) (flat t pre)) by (apply flat_reaches; exists r, (TPrim p); auto).
      destruct (elements_diverge t pre _ _ Hfl Hx) as [G _]; cbn [fst].
      * rewrite E. intros E'. apply app_inv_head in E'. apply (f_equal (@length nat)) in E'.
        rewrite app_length in E'. cbn in E'. lia.
      * apply G. exists (k :: r2). cbn [fst]. rewrite E, <- app_assoc. reflexivity.
Qed.

(** ** The encoder *)

Lemma size_loop_same src src' sz sz' vs :
  (forall r, src_tag src' r = src_tag src r) -> (forall r, src_len src' r = src_len src r) ->
  (forall v cases c, In v vs -> v_kind v = VEnum cases -> In c cases -> sz' c = sz c) ->
  forall o, size_loop src' sz' vs o = size_loop src sz vs o.
Proof.
  intros Dt Dl. induction vs as [|v vs IH]; intros Hc o; cbn [size_loop]; [reflexivity|].
  assert (IH' := IH (fun w cases c Hw => Hc w cases c (or_intror Hw))). destruct (v_kind v) as [|cases] eqn:Ek.
  - rewrite Dl. destruct (src_len src (v_path v)); cbn [bind]; [|reflexivity..]. apply IH'.
  - rewrite Dt. destruct (src_tag src (v_path v)) as [k| |]; cbn [bind]; [|reflexivity..]. rewrite !pick_nth.
    destruct (nth_error cases k) as [c|] eqn:Ec; [|reflexivity].
    rewrite (Hc v cases c (or_introl eq_refl) Ek (nth_error_In _ _ Ec)). destruct (sz c); cbn [bind]; [|reflexivity..]. apply IH'.
Qed.

Lemma size_same src src' l :
  (forall r, src_tag src' r = src_tag src r) -> (forall r, src_len src' r = src_len src r) ->
  encoding_size_with_source src' l = encoding_size_with_source src l.
Proof.
  intros Dt Dl. induction l as [al vo ix fx vs IH] using layout_ind'. cbn [encoding_size_with_source].
  rewrite (size_loop_same src src' (encoding_size_with_source src) _ vs Dt Dl IH vo). reflexivity.
Qed.

Lemma patched pf t l v r p z v' n buf :
  small t -> layout_new t = Ret l -> marshallable pf l -> typed t v -> typed t v' -> changed t v r p z v' ->
  encoding_size_with_source (val_source v) l = Ret n -> n <= length buf ->
  exists buf1 x, encode_with_source pf (val_source v) l buf = Ret (buf1, n) /\ x + width p <= n /\
    encode_with_source pf (val_source v') l buf = Ret (write buf1 x (le_bytes (width p) z), n) /\
    (reaches t r (TPrim p) -> exists f, In f (l_fixed l) /\ f_path f = r /\ f_kind f = FPrim p /\ x = f_offset f).
Proof.
  intros Hs Hl Hm Ht Ht' Hch Hn Hb. pose proof (changed_differ _ _ _ _ _ _ Hch) as D.
  assert (Hn' : encoding_size_with_source (val_source v') l = Ret n) by (rewrite <- Hn; apply size_same; apply D).
  destruct (round_trip pf _ t l v n buf Hs Hl Hm (every_value_presented _ _ Ht) Ht Hn Hb) as (b1 & E1 & _).
  destruct (round_trip pf _ t l v' n buf Hs Hl Hm (every_value_presented _ _ Ht') Ht' Hn' Hb) as (b2 & E2 & _).
  destruct (encoded_bits pf _ t [] l _ _ _ Hl Hm E1) as (L1 & K1 & I1).
  destruct (encoded_bits pf _ t [] l _ _ _ Hl Hm E2) as (L2 & K2 & I2).
  destruct (patch_image (val_source v) (val_source v') p z t [] r l v v' buf b1 n Hl Hch) as (x & Hx1 & Hx2 & Hx3); try assumption.
  - intros s k w Hw. cbn. rewrite Hw. reflexivity.
  - lia.
  - exists b1, x. split; [exact E1|]. split; [exact Hx1|]. split; [|exact Hx3]. rewrite E2. do 2 f_equal.
    destruct (image_unique _ _ _ _ _ I2 _ _ Hx2) as [_ Hu]. apply list_ext. intros i.
    destruct (Nat.lt_ge_cases i n) as [Hi|Hi]; [symmetry; apply Hu; exact Hi|].
    rewrite K2 by exact Hi. rewrite nth_error_write by (rewrite le_bytes_length; lia). rewrite le_bytes_length.
    replace ((x <=? i) && (i <? x + width p)) with false by lia. symmetry. apply K1. exact Hi.
Qed.

Lemma same_entries {A} (l : list A) : forall l', (forall j, nth_error l' j = nth_error l j) -> l' = l.
Proof.
  induction l as [|x l IH]; intros [|x' l'] H; [reflexivity|specialize (H 0); discriminate..|].
  pose proof (H 0) as H0. injection H0 as ->. f_equal. apply IH. intros j. exact (H (S j)).
Qed.

Lemma typed_list_replaced ts : forall vs vs' k t v', typed_list ts vs -> nth_error ts k = Some t -> typed t v' ->
  replaced vs k v' vs' -> typed_list ts vs'.
Proof.
  induction ts as [|t0 ts IH]; intros vs vs' k t v' H Hk Hv (R1 & R2 & R3); [destruct k; discriminate|].
  inversion H as [|? ? v0 vs0 Hv0 Hvs0]; subst. destruct vs' as [|w vs']; [discriminate|]. cbn in R1. destruct k as [|k].
  - injection Hk as ->. injection R2 as ->. constructor; [exact Hv|].
    assert (vs' = vs0) as ->; [|exact Hvs0].
    apply same_entries. intros j. exact (R3 (S j) ltac:(lia)).
  - pose proof (R3 0 ltac:(lia)) as E. injection E as ->. constructor; [exact Hv0|].
    eapply IH; [exact Hvs0|exact Hk|exact Hv|]. split; [lia|]. split; [exact R2|]. intros i Hi. exact (R3 (S i) ltac:(lia)).
Qed.

Lemma typed_list_nth ts : forall vs k t v, typed_list ts vs -> nth_error ts k = Some t -> nth_error vs k = Some v -> typed t v.
Proof.
  induction ts as [|t0 ts IH]; intros vs k t v H Hk Hv; [destruct k; discriminate|]. inversion H; subst. destruct k; cbn in *.
  - congruence.
  - eapply IH; eassumption.
Qed.

Lemma changed_typed t v r p z v' : changed t v r p z v' -> typed t v -> in_range p z -> typed t v'.
Proof.
  intros H. induction H as [p z0 z|ts vs k r p z t v v' vs' Ht Hv Hc IH R|fs vs k r p z f v v' vs' Ht Hv Hc IH R|cs k r p z l t v v' Ht Hc IH];
    intros T Hz; inversion T; subst.
  - constructor. exact Hz.
  - constructor. eapply typed_list_replaced; [eassumption|exact Ht| |exact R]. apply IH; [|exact Hz]. eapply typed_list_nth; eassumption.
  - assert (Ht' : nth_error (map snd fs) k = Some (snd f)) by (apply map_nth_error; exact Ht).
    constructor. eapply typed_list_replaced; [eassumption|exact Ht'| |exact R]. apply IH; [|exact Hz]. eapply typed_list_nth; eassumption.
  - match goal with H : nth_error cs k = Some (?a, ?b), H' : typed ?b v |- _ => assert (b = t) as -> by congruence end.
    econstructor; [exact Ht|]. apply IH; assumption.
Qed.

Lemma patched_any pf src src' t l v r p z v' n buf :
  small t -> layout_new t = Ret l -> marshallable pf l -> presents src t [] v -> typed t v -> changed t v r p z v' ->
  in_range p z -> presents src' t [] v' -> encoding_size_with_source src l = Ret n -> n <= length buf ->
  exists buf1 x, encode_with_source pf src l buf = Ret (buf1, n) /\ x + width p <= n /\
    encode_with_source pf src' l buf = Ret (write buf1 x (le_bytes (width p) z), n) /\
    presents (marshaller_source pf l (write buf1 x (le_bytes (width p) z))) t [] v' /\
    (reaches t r (TPrim p) -> exists f, In f (l_fixed l) /\ f_path f = r /\ f_kind f = FPrim p /\ x = f_offset f).
Proof.
  intros Hs Hl Hm Hp Ht Hch Hz Hp' Hn Hb. pose proof (changed_typed _ _ _ _ _ _ Hch Ht Hz) as Ht'.
  destruct (encode_same pf _ _ _ _ _ _ Hl Hp (every_value_presented _ _ Ht)) as [S1 S2].
  destruct (encode_same pf _ _ _ _ _ _ Hl Hp' (every_value_presented _ _ Ht')) as [S3 S4].
  rewrite <- S1 in Hn. destruct (patched pf t l v r p z v' n buf Hs Hl Hm Ht Ht' Hch Hn Hb) as (b1 & x & E1 & Hx & E2 & Hf).
  exists b1, x. rewrite <- S2, <- S4. split; [exact E1|]. split; [exact Hx|]. split; [exact E2|]. split; [|exact Hf].
  assert (Hn' : encoding_size_with_source (val_source v') l = Ret n).
  { rewrite <- Hn. pose proof (changed_differ _ _ _ _ _ _ Hch) as D. apply size_same; apply D. }
  destruct (round_trip pf _ t l v' n buf Hs Hl Hm (every_value_presented _ _ Ht') Ht' Hn' Hb) as (b2 & E3 & R).
  rewrite E2 in E3. injection E3 as <-. apply R; [|reflexivity]. apply encode_length in E2. lia.
Qed.

Lemma patched_fixed pf t l r p :
  small t -> layout_new t = Ret l -> marshallable pf l -> reaches t r (TPrim p) ->
  exists f, In f (l_fixed l) /\ f_path f = r /\ f_kind f = FPrim p /\
    forall src src' v z v' n buf, presents src t [] v -> typed t v -> changed t v r p z v' -> in_range p z ->
      presents src' t [] v' -> encoding_size_with_source src l = Ret n -> n <= length buf ->
      exists buf1, encode_with_source pf src l buf = Ret (buf1, n) /\ f_offset f + width p <= n /\
        encode_with_source pf src' l buf = Ret (write buf1 (f_offset f) (le_bytes (width p) z), n).
Proof.
  intros Hs Hl Hm Hr. assert (Hfl : In (r, KPrim p) (flat t [])) by (apply flat_reaches; exists r, (TPrim p); auto).
  destruct (index_entry t [] l Hl _ _ Hfl) as (_ & _ & f & _ & _ & _ & _ & Hff & Ef & Hkr).
  assert (Ek : f_kind f = FPrim p) by (destruct (f_kind f); cbn in Hkr; try contradiction; congruence).
  exists f. split; [exact Hff|]. split; [exact Ef|]. split; [exact Ek|].
  intros src src' v z v' n buf Hp Ht Hch Hz Hp' Hn Hb.
  destruct (patched_any pf src src' t l v r p z v' n buf) as (b1 & x & E1 & Hx & E2 & _ & Hf); try assumption.
  destruct (Hf Hr) as (g & Hg & Eg & Ekg & ->). assert (g = f) as ->.
  { eapply (NoDup_map_inj f_path); [|exact Hg|exact Hff|congruence].
    eapply Permutation_NoDup; [symmetry; exact (lo_paths _ _ (calculate_layout_ok _ _ _ Hl))|apply flat_nodup]. }
  exists b1. auto.
Qed.
