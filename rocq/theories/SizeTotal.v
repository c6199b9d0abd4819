(** * The encoded size exists and is linear in the value *)

From Coq Require Import Permutation Sorted ZifyBool ZifyNat ZifyN.
From Verif Require Import Base BaseFacts UtilModel UtilSpec UtilProofs StrModel TypesModel TypesSpec TypesProofs.
From Verif Require Import MarshalModel MarshalSpec ListFacts LayoutProofs FieldProofs LayoutTotal PresentsFacts MarshalProofs.

Lemma finish_layout_var_off fl vs l :
  Forall2 var_rel (filter is_var fl) vs ->
  (forall v cases c, In v vs -> v_kind v = VEnum cases -> In c cases -> pow2_16 (l_align c)) ->
  finish_layout (flat_map flat_fixed fl, flat_map flat_bits fl, vs) = Ret l ->
  l_var_off l <= 16 * length fl + 16.
Proof.
  intros Hvs Hal H. unfold finish_layout in H. inv_bind H. destruct a as [bits conts].
  unfold allocate_bitfields in Ha. inv_bind Ha. destruct a as [r cs]. injection Ha as <- <-. rename Ha0 into Halloc.
  set (bs := flat_map flat_bits fl) in *. set (fx := flat_map flat_fixed fl) in *.
  set (sbs := sort_desc (fun a b => b_bits a <? b_bits b) bs) in *.
  set (conts := cont_fields 0 cs) in *.
  set (sorted := sort_desc (fun l0 r0 => field_size l0 <? field_size r0) (fx ++ conts)) in *.
  set (vars := sort_desc (fun l0 r0 => vfield_align l0 <? vfield_align r0) vs) in *.
  inv_bind H. destruct a as [placed size]. rename Ha into Hoff.
  inv_bind H. cbv zeta in H. inv_bind H. inv_bind H. inv_bind H. destruct a2 as [vars' ix]. injection H as <-. cbn [l_var_off].
  assert (Hperm : Permutation sorted (fx ++ conts)) by apply sort_desc_perm.
  assert (Hnb : Forall no_bit sorted).
  { eapply Permutation_Forall; [symmetry; exact Hperm|]. apply Forall_app. split; [apply flat_fixed_no_bit|].
    rewrite Forall_forall. intros f Hf. apply cont_fields_In in Hf as (j & c & _ & ->). exact I. }
  destruct (assign_offsets_total sorted 0 Hnb) as [placed' Eoff]. rewrite Hoff in Eoff. injection Eoff as _ Esz.
  assert (Hva : pow2_16 (match vars with v :: _ => vfield_align v | [] => 1 end)).
  { assert (Hpv : Permutation vars vs) by apply sort_desc_perm.
    destruct vars as [|v vars0]; [apply pow2_16_1|]. apply vfield_align_pow2. intros cases c Hk Hc.
    eapply Hal; [|exact Hk|exact Hc]. eapply Permutation_in; [exact Hpv|]. left. reflexivity. }
  destruct (pow2_16_is_pow2 _ Hva) as [Hp2 Hle]. apply align_nat_inv in Ha0 as (_ & Hpos & _ & ->).
  pose proof (align_up_lt size _ Hpos) as Hlt.
  assert (Hcs : length cs <= length sbs).
  { clear - Halloc. assert (G : forall bs cs0 r cs, alloc bs cs0 = Ret (r, cs) -> length cs <= length cs0 + length bs).
    { clear. induction bs as [|b bs IH]; intros cs0 r cs H; cbn [alloc] in H.
      - injection H as <- <-. lia.
      - destruct (place cs0 0 (b_bits b)) as [[[i o] cs1]|] eqn:Ep.
        + destruct (place_spec _ _ _ _ _ _ Ep) as (j & c & _ & _ & _ & _ & E1). inv_bind H. destruct a as [r' cs'].
          injection H as <- <-. apply IH in Ha. rewrite E1, update_length in Ha. cbn [length]. lia.
        + inv_bind H. inv_bind H. inv_bind H. destruct a1 as [r' cs']. injection H as <- <-. apply IH in Ha1.
          rewrite app_length in Ha1. cbn [length] in *. lia. }
    apply G in Halloc. cbn [length] in Halloc. lia. }
  assert (Hlen : length sorted <= length fl).
  { rewrite (Permutation_length Hperm), app_length. unfold conts.
    assert (Ec : forall n, length (cont_fields n cs) = length cs).
    { clear. induction cs as [|c cs IH]; intros n; cbn [cont_fields length]; [reflexivity|]. rewrite IH. reflexivity. }
    rewrite Ec. unfold sbs in Hcs. rewrite (Permutation_length (sort_desc_perm _ bs)) in Hcs.
    pose proof (flat_counts fl) as Hfc. fold fx bs in Hfc. lia. }
  pose proof (list_sum_le field_size 16 sorted field_size_le) as Hsum. lia.
Qed.

Lemma layout_var_off t q l : calculate_layout t q = Ret l -> l_var_off l <= 16 * length (flat t q) + 16.
Proof.
  intros H. unfold calculate_layout in H. inv_bind H. destruct a as [[fx bs] vs].
  destruct (unroll_flat t q fx bs vs Ha) as (-> & -> & Hvs).
  eapply finish_layout_var_off; [exact Hvs| |exact H].
  intros v cases c Hv Hk Hc. destruct (var_rel_enum _ _ _ _ _ Hvs Hv Hk Hc) as (cs & cse & i & H1 & H2 & _ & H4).
  apply (lo_align _ _ (calculate_layout_ok _ _ _ H4)).
Qed.

(** Weight of an element: its share of the size of the value. *)
Definition weighs (src : source) (e : path * fk) (w : nat) : Prop :=
  match snd e with
  | KPrim _ => w = 0
  | KStr => src_len src (fst e) = Ret w
  | KTag cs => exists k l t v, src_tag src (fst e) = Ret k /\ nth_error cs k = Some (l, t) /\
                               presents src t (fst e ++ [k]) v /\ w = val_size v
  end.

Definition good_pairs (src : source) (ews : list ((path * fk) * nat)) : Prop := Forall (fun x => weighs src (fst x) (snd x)) ews.

Lemma list_sum_perm a b : Permutation a b -> list_sum a = list_sum b.
Proof. induction 1; cbn [list_sum fold_right] in *; unfold list_sum in *; lia. Qed.

Lemma presents_weight src t : forall q v, presents src t q v ->
  exists ews, map fst ews = flat t q /\ good_pairs src ews /\ length ews + list_sum (map snd ews) <= val_size v.
Proof.
  assert (G : forall A (g : A -> ty) l,
    Forall (fun a => forall q v, presents src (g a) q v ->
      exists ews, map fst ews = flat (g a) q /\ good_pairs src ews /\ length ews + list_sum (map snd ews) <= val_size v) l ->
    forall q k vs, presents_list src (map g l) q k vs ->
    exists ews, map fst ews = flat_members (fun a => flat (g a)) l q k /\ good_pairs src ews /\
                length ews + list_sum (map snd ews) <= list_sum (map val_size vs)).
  { intros A g l HF. induction HF as [|a l Ha Hl IH]; intros q k vs Hp; cbn [flat_members map] in *.
    - inversion Hp; subst. exists []. repeat split; [constructor|cbn; lia].
    - inversion Hp as [|? ? ? ? v vs' Hv Hvs]; subst. destruct (Ha _ _ Hv) as (e1 & E1 & G1 & S1).
      destruct (IH _ _ _ Hvs) as (e2 & E2 & G2 & S2). exists (e1 ++ e2). rewrite !map_app, app_length, list_sum_app.
      split; [congruence|]. split; [apply Forall_app; split; assumption|].
      cbn [map list_sum fold_right]. unfold list_sum in *. lia. }
  induction t using ty_ind'; intros q v Hp; cbn [flat].
  - inversion Hp; subst. exists []. repeat split; [constructor|cbn; lia].
  - inversion Hp; subst. exists [(q, KPrim p, 0)]. repeat split; [|cbn; lia]. constructor; [reflexivity|constructor].
  - inversion Hp as [| |? bs H1 H2| | |]; subst. exists [(q, KStr, length bs)]. repeat split; [|cbn; lia].
    constructor; [exact H1|constructor].
  - inversion Hp as [| | |? ? vs Hl| |]; subst. destruct (G _ (fun t => t) _ H q 0 vs) as (e & E1 & E2 & E3); [rewrite map_id; exact Hl|].
    exists e. split; [exact E1|]. split; [exact E2|]. cbn [val_size]. lia.
  - inversion Hp as [| | | |? ? vs Hl|]; subst. destruct (G _ (fun f => snd f) _ H q 0 vs Hl) as (e & E1 & E2 & E3).
    exists e. split; [exact E1|]. split; [exact E2|]. cbn [val_size]. lia.
  - inversion Hp as [| | | | |? ? k l t v' Hk Hn Hv]; subst. exists [(q, KTag cs, val_size v')].
    repeat split; [|cbn; lia]. constructor; [|constructor]. exists k, l, t, v'. auto.
Qed.

Lemma filter_map_fst {A B} (f : A -> bool) (l : list (A * B)) :
  filter f (map fst l) = map fst (filter (fun x => f (fst x)) l).
Proof. induction l as [|[a b] l IH]; [reflexivity|]. cbn [map filter fst]. destruct (f a); cbn [map fst]; rewrite IH; reflexivity. Qed.

Lemma filter_sum {A} (f : A * nat -> bool) l : list_sum (map snd (filter f l)) <= list_sum (map snd l).
Proof.
  induction l as [|a l IH]; [cbn; lia|]. cbn [filter]. destruct (f a); cbn [map list_sum fold_right]; unfold list_sum in *; lia.
Qed.

Lemma size_total src t : forall q l v,
  calculate_layout t q = Ret l -> presents src t q v -> (Z.of_nat (val_size v) < 2 ^ 57)%Z ->
  exists n, encoding_size_with_source src l = Ret n /\ n <= 64 * val_size v.
Proof.
  induction t as [t IH] using ty_payload_ind. intros q l v Hc Hp Hv.
  pose proof (calculate_layout_ok _ _ _ Hc) as Hl. pose proof (layout_var_off _ _ _ Hc) as Hvo.
  destruct (presents_weight _ _ _ _ Hp) as (ews & E & Hg & Hsum).
  destruct (lo_vars _ _ Hl) as (fv & Hperm & HF). rewrite <- E, filter_map_fst in Hperm.
  apply Permutation_map_inv in Hperm as (ews' & -> & Hperm).
  pose proof (filter_sum (fun x => is_var (fst x)) ews) as Hs'. rewrite (list_sum_perm _ _ (Permutation_map snd Hperm)) in Hs'.
  assert (Hg' : good_pairs src ews').
  { eapply Permutation_Forall; [exact Hperm|]. unfold good_pairs in *. rewrite Forall_forall in *. intros x Hx.
    apply filter_In in Hx as [Hx _]. apply Hg. exact Hx. }
  assert (Hin : forall x, In x ews' -> In (fst x) (flat t q)).
  { intros x Hx. rewrite <- E. apply in_map. apply (Permutation_in _ (Permutation_sym Hperm)) in Hx.
    apply filter_In in Hx as [Hx _]. exact Hx. }
  assert (Hlen : length (flat t q) = length ews) by (rewrite <- E, map_length; reflexivity).
  assert (Hloop : forall off, exists off', size_loop src (encoding_size_with_source src) (l_vars l) off = Ret off' /\
            off' <= off + 64 * list_sum (map snd ews')).
  { assert (Hbound : list_sum (map snd ews') <= val_size v) by lia.
    clear Hperm Hs' Hvo Hsum Hlen. revert HF Hg' Hin Hbound. generalize (l_vars l).
    induction ews' as [|[e w] ews' IHe]; intros vs HF Hg' Hin Hbound off; cbn [map] in *.
    - inversion HF; subst. exists off. split; [reflexivity|lia].
    - inversion HF as [|? x ? vs' Hr HF' E1 E2]; subst. inversion Hg' as [|? ? Hw Hg'']; subst. cbn [fst snd] in *.
      cbn [list_sum fold_right] in *. change (fold_right Nat.add 0 (map snd ews')) with (list_sum (map snd ews')) in *.
      assert (IHe' := IHe vs' HF' Hg'' (fun y Hy => Hin y (or_intror Hy)) ltac:(lia)). clear IHe.
      cbn [size_loop]. destruct Hr as [Ep Hr]. unfold weighs in Hw. destruct e as [ep k]. cbn [fst snd] in *.
      destruct k as [p| |cs]; [destruct Hr| |].
      + rewrite Hr, Ep, Hw. cbn [bind].
        destruct (IHe' (off + w)) as (off' & E1 & E2). exists off'. split; [exact E1|]. lia.
      + destruct Hr as (ls & Hk & _ & Hls). destruct Hw as (k & l' & t' & v' & W1 & W2 & W3 & ->).
        rewrite Hk, Ep, W1. cbn [bind]. destruct (members_nth_l _ _ _ _ _ _ _ Hls W2) as (c & Hcn & Hcc). cbn [snd Nat.add] in Hcc.
        rewrite pick_nth, Hcn.
        destruct (IH q ep cs (l', t') (Hin _ (or_introl eq_refl)) (nth_error_In _ _ W2) _ c v' Hcc W3 ltac:(lia)) as (m & M1 & M2).
        rewrite M1. cbn [bind]. destruct (IHe' (off + m)) as (off' & E1 & E2). exists off'. split; [exact E1|]. lia. }
  destruct (Hloop (l_var_off l)) as (off & Eoff & Hoff). pose proof (lo_align _ _ Hl) as Hal.
  destruct (pow2_16_is_pow2 _ Hal) as [Hp2 H16]. destruct l as [al vo ix fx vs]. cbn [l_vars l_var_off l_align] in *.
  cbn [encoding_size_with_source]. rewrite Eoff. cbn [bind].
  assert (Hpos : 0 < al). { destruct Hal as (e & _ & ->). apply Nat.neq_0_lt_0, Nat.pow_nonzero. lia. }
  assert (1 <= val_size v) by (destruct v; cbn [val_size]; lia).
  rewrite align_nat_value by (exact Hp2 || lia). exists (align_up off al). split; [reflexivity|].
  assert (length ews = 0 -> list_sum (map snd ews) = 0) by (destruct ews; [reflexivity|discriminate]).
  pose proof (align_up_lt off al Hpos). lia.
Qed.
