(** * Layouts exist for every type with members *)

From Coq Require Import Permutation Sorted ZifyBool ZifyNat ZifyN.
From Verif Require Import Base BaseFacts UtilModel UtilSpec UtilProofs StrModel TypesModel TypesSpec TypesProofs.
From Verif Require Import MarshalModel MarshalSpec ListFacts LayoutProofs FieldProofs.

Lemma primitive_for_bits_total n : n <= 128 -> exists p, primitive_for_bits n = Ret p.
Proof. intros H. unfold primitive_for_bits. destruct (Nat.leb_spec n 128); [|lia]. eexists. reflexivity. Qed.

Lemma alloc_total bs : forall cs, Forall (fun b => b_bits b <= 128) bs ->
  exists r cs2, alloc bs cs = Ret (r, cs2) /\ length cs2 <= length cs + length bs.
Proof.
  induction bs as [|b bs IH]; intros cs H; cbn [alloc].
  - exists [], cs. split; [reflexivity|]. cbn [length]. lia.
  - inversion H as [|? ? Hb H']; subst. destruct (place cs 0 (b_bits b)) as [[[i o] cs1]|] eqn:Ep.
    + destruct (place_spec _ _ _ _ _ _ Ep) as (j & c & _ & _ & _ & _ & E1).
      destruct (IH cs1 H') as (r & cs2 & E & L). rewrite E. cbn [bind]. eexists _, _. split; [reflexivity|].
      rewrite E1, update_length in L. cbn [length]. lia.
    + destruct (primitive_for_bits_total _ Hb) as [p Hp]. rewrite Hp. cbn [bind].
      destruct (primitive_for_bits_spec _ _ Hp) as [_ Hle]. unfold usub.
      destruct (Nat.leb_spec (b_bits b) (prim_size p * 8)); [|lia]. cbn [bind].
      match goal with |- context [alloc bs ?x] => destruct (IH x H') as (r & cs2 & E & L) end.
      rewrite E. cbn [bind]. eexists _, _. split; [reflexivity|]. rewrite app_length in L. cbn [length] in *. lia.
Qed.

Lemma assign_offsets_total fs : forall start, Forall no_bit fs ->
  exists placed, assign_offsets fs start = Ret (placed, start + list_sum (map field_size fs)).
Proof.
  induction fs as [|f fs IH]; intros start H; cbn [assign_offsets].
  - exists []. cbn. rewrite Nat.add_0_r. reflexivity.
  - inversion H as [|? ? Hf H']; subst. rewrite kind_size_field by exact Hf. cbn [bind].
    destruct (IH (start + field_size f) H') as [placed E]. rewrite E. cbn [bind]. eexists. do 2 f_equal.
    cbn [map list_sum fold_right]. unfold list_sum. lia.
Qed.

Lemma field_size_le f : field_size f <= 16.
Proof. unfold field_size. destruct (f_kind f) as [p| |? p|p ? ?]; try destruct p; cbn; lia. Qed.

Lemma list_sum_le {A} (g : A -> nat) b l : (forall a, g a <= b) -> list_sum (map g l) <= b * length l.
Proof.
  intros H. induction l as [|a l IH]; cbn [map list_sum fold_right length]; [lia|].
  change (fold_right Nat.add 0 (map g l)) with (list_sum (map g l)). specialize (H a). lia.
Qed.

Lemma find_container_total fs i p f :
  In f fs -> f_kind f = FContainer i p -> exists o p', find_container fs i = Ret (o, p').
Proof.
  intros Hin Hk. unfold find_container.
  destruct (find (fun f => match f_kind f with FContainer j _ => j =? i | _ => false end) (rev fs)) as [g|] eqn:E.
  - apply find_some in E as [_ Hg]. destruct (f_kind g); try discriminate. eexists _, _. reflexivity.
  - exfalso. pose proof (find_none _ _ E f) as Hn. rewrite <- in_rev in Hn. specialize (Hn Hin). cbv beta in Hn.
    rewrite Hk, Nat.eqb_refl in Hn. discriminate.
Qed.

Lemma bit_fields_total fs bs :
  Forall (fun b => exists o p, find_container fs (b_index b) = Ret (o, p)) bs ->
  exists r, bit_fields_to_fixed fs bs = Ret r.
Proof.
  induction 1 as [|b bs (o & p & E) H [r IH]]; cbn [bit_fields_to_fixed]; [eexists; reflexivity|].
  rewrite E. cbn [bind]. rewrite IH. eexists. reflexivity.
Qed.

Lemma link_vars_total vs : forall k ix, desc ix -> Forall (fun v => In (v_path v) (map i_path ix)) vs ->
  exists r ix', link_vars k vs ix = Ret (r, ix').
Proof.
  induction vs as [|v vs IH]; intros k ix Hd H; cbn [link_vars]; [eexists _, _; reflexivity|].
  inversion H as [|? ? Hv H']; subst. apply in_map_iff in Hv as (x & Ex & Hx).
  apply In_nth_error in Hx as [j Hj]. pose proof (search_hit _ _ _ Hd Hj) as Es. rewrite Ex in Es. rewrite Es.
  unfold lookup_fixed. destruct (find (fun x0 => path_eqb (i_path x0) (v_path v)) (rev ix)) as [y|] eqn:E.
  - cbn [bind]. destruct (IH (S k) (update ix j (set_var k)) (desc_update _ _ _ Hd)) as (r & ix' & E').
    { rewrite map_update by reflexivity. exact H'. }
    rewrite E'. eexists _, _. reflexivity.
  - exfalso. pose proof (find_none _ _ E x) as Hn. rewrite <- in_rev in Hn.
    specialize (Hn (nth_error_In _ _ Hj)). cbv beta in Hn. rewrite (proj2 (path_eqb_eq _ _) Ex) in Hn. discriminate.
Qed.

Lemma flat_counts fl : length (flat_map flat_fixed fl) + length (flat_map flat_bits fl) = length fl.
Proof.
  induction fl as [|[q [p| |cs]] fl IH]; cbn [flat_map flat_fixed flat_bits app length]; lia.
Qed.

Lemma pow2_16_is_pow2 n : pow2_16 n -> is_pow2 (Z.of_nat n) = true /\ n <= 16.
Proof.
  intros (e & He & ->). do 5 (destruct e as [|e]; [split; [reflexivity|cbn; lia]|]). lia.
Qed.

Lemma finish_layout_total fl vs :
  NoDup (map fst fl) ->
  Forall2 var_rel (filter is_var fl) vs ->
  (forall v cases c, In v vs -> v_kind v = VEnum cases -> In c cases -> pow2_16 (l_align c)) ->
  (forall q cs, In (q, KTag cs) fl -> tag_bits cs <= 128) ->
  (16 * Z.of_nat (length fl) + 16 < 2 ^ 64)%Z ->
  exists l, finish_layout (flat_map flat_fixed fl, flat_map flat_bits fl, vs) = Ret l.
Proof.
  intros Hnd Hvs Hal Hbits Hsz. unfold finish_layout, allocate_bitfields.
  set (fx := flat_map flat_fixed fl). set (bs := flat_map flat_bits fl).
  set (sbs := sort_desc (fun a b => b_bits a <? b_bits b) bs).
  assert (Hsb : Forall (fun b => b_bits b <= 128) sbs).
  { eapply Permutation_Forall; [symmetry; apply sort_desc_perm|]. rewrite Forall_forall. intros b Hb.
    apply in_flat_map in Hb as ([q k] & Hin & Hb). destruct k as [p| |cs]; cbn in Hb; try (destruct Hb; fail).
    destruct Hb as [<-|[]]. cbn [b_bits]. eapply Hbits. exact Hin. }
  destruct (alloc_total sbs [] Hsb) as (r & cs & Ealloc & Lcs). rewrite Ealloc. cbn [bind].
  destruct (alloc_spec _ _ _ _ Ealloc (Forall_nil _)) as (A1 & _ & A3 & A4 & A5 & A6).
  set (conts := cont_fields 0 cs).
  set (sorted := sort_desc (fun l0 r0 => field_size l0 <? field_size r0) (fx ++ conts)).
  set (vars := sort_desc (fun l0 r0 => vfield_align l0 <? vfield_align r0) vs).
  assert (Hperm : Permutation sorted (fx ++ conts)) by apply sort_desc_perm.
  assert (Hnb : Forall no_bit sorted).
  { eapply Permutation_Forall; [symmetry; exact Hperm|]. apply Forall_app. split; [apply flat_fixed_no_bit|].
    rewrite Forall_forall. intros f Hf. apply cont_fields_In in Hf as (j & c & _ & ->). exact I. }
  destruct (assign_offsets_total sorted 0 Hnb) as [placed Eoff]. rewrite Eoff. cbn [bind].
  destruct (assign_offsets_spec _ _ _ _ Eoff) as (_ & O1 & _ & _).
  { apply sort_desc_key. }
  { rewrite Forall_forall. intros f _. apply Nat.divide_0_r. }
  { exact Hnb. }
  assert (Efa : exists fa, match placed with f :: _ => kind_size (f_kind f) | [] => Ret 1 end = Ret fa).
  { destruct O1 as [|g f ls lp [_ Ek] O1]; [eexists; reflexivity|]. inversion Hnb as [|? ? Hg _]; subst.
    exists (field_size f). apply kind_size_field. unfold no_bit in *. rewrite <- Ek. exact Hg. }
  destruct Efa as [fa Efa]. rewrite Efa. cbn [bind].
  assert (Hva : pow2_16 (match vars with v :: _ => vfield_align v | [] => 1 end)).
  { assert (Hpv : Permutation vars vs) by apply sort_desc_perm.
    destruct vars as [|v vars0]; [apply pow2_16_1|]. apply vfield_align_pow2. intros cases c Hk Hc.
    eapply Hal; [|exact Hk|exact Hc]. eapply Permutation_in; [exact Hpv|]. left. reflexivity. }
  destruct (pow2_16_is_pow2 _ Hva) as [Hp2 Hle].
  assert (Hlen : length sorted <= length fl).
  { rewrite (Permutation_length Hperm), app_length. unfold conts.
    assert (Ec : forall n, length (cont_fields n cs) = length cs).
    { clear. induction cs as [|c cs IH]; intros n; cbn [cont_fields length]; [reflexivity|]. rewrite IH. reflexivity. }
    rewrite Ec. unfold sbs in Lcs. rewrite (Permutation_length (sort_desc_perm _ bs)) in Lcs. cbn [length] in Lcs.
    pose proof (flat_counts fl). fold fx bs in H. lia. }
  pose proof (list_sum_le field_size 16 sorted field_size_le) as Hsum.
  rewrite align_nat_value; [|exact Hp2|cbn [Nat.add]; lia]. cbn [bind].
  assert (Hbf : exists bfs, bit_fields_to_fixed placed r = Ret bfs).
  { apply bit_fields_total. rewrite Forall_forall in *. intros b Hb. destruct (A5 _ Hb) as [(c & Hc & _) _].
    assert (Hin : In (cont_field (b_index b) (c_prim c)) sorted).
    { eapply Permutation_in; [symmetry; exact Hperm|]. apply in_or_app. right. apply cont_fields_In.
      exists (b_index b), c. auto. }
    destruct (Forall2_in_l _ _ _ _ O1 Hin) as (g & Hg & [_ Ek]).
    eapply find_container_total; [exact Hg|]. rewrite <- Ek. reflexivity. }
  destruct Hbf as [bfs Ebfs]. rewrite Ebfs. cbn [bind].
  set (fixed := filter (fun f => negb (is_container f)) placed ++ bfs).
  set (ix0 := sort_desc (fun l0 r0 => match path_cmp (i_path l0) (i_path r0) with Lt => true | _ => false end)
                (make_indices 0 fixed)).
  (* every element of the type has a fixed field *)
  assert (Hcov : Permutation (map f_path fixed) (map fst fl)).
  { pose proof (bit_fields_spec _ _ _ Ebfs) as HB. unfold fixed. rewrite map_app.
    assert (P1 : Permutation (map f_path (filter (fun f => negb (is_container f)) placed)) (map f_path fx)).
    { assert (Q1 : map f_path (filter (fun f => negb (is_container f)) placed) =
                   map f_path (filter (fun f => negb (is_container f)) sorted)).
      { clear - O1. induction O1 as [|g f ls lp [E1 E2] O1 IH]; [reflexivity|]. cbn [filter].
        assert (E : is_container g = is_container f) by (unfold is_container; rewrite E2; reflexivity).
        rewrite E. destruct (is_container f); cbn [negb map]; rewrite ?IH, ?E1; reflexivity. }
      rewrite Q1. apply Permutation_map.
      assert (Q2 : Permutation (filter (fun f => negb (is_container f)) sorted)
                               (filter (fun f => negb (is_container f)) (fx ++ conts))).
      { clear - Hperm. induction Hperm; cbn [filter].
        - reflexivity.
        - destruct (negb (is_container x)); [constructor|]; assumption.
        - destruct (negb (is_container x)), (negb (is_container y)); try reflexivity. apply perm_swap.
        - etransitivity; eassumption. }
      rewrite Q2, filter_app.
      replace (filter (fun f => negb (is_container f)) conts) with (@nil ffield).
      - rewrite app_nil_r. replace (filter (fun f => negb (is_container f)) fx) with fx; [reflexivity|].
        symmetry. unfold fx. clear. induction fl as [|[q [p| |cs]] fl IH]; cbn [flat_map flat_fixed app filter]; try reflexivity.
        + unfold is_container at 1. cbn [f_kind negb]. f_equal. exact IH.
        + unfold is_container at 1. cbn [f_kind negb]. f_equal. exact IH.
        + exact IH.
      - symmetry. unfold conts. generalize 0. clear. induction cs as [|c cs IH]; intros n; [reflexivity|].
        cbn [cont_fields filter cont_field is_container f_kind negb]. apply IH. }
    assert (P2 : Permutation (map f_path bfs) (map b_path bs)).
    { assert (Q : map f_path bfs = map b_path r).
      { clear - HB. induction HB as [|b f lb lf [E _] HB IH]; [reflexivity|]. cbn [map]. rewrite E, IH. reflexivity. }
      rewrite Q, A3. apply Permutation_map. apply sort_desc_perm. }
    rewrite P1, P2. unfold fx, bs. clear.
    induction fl as [|[q [p| |cs]] fl IH]; cbn [flat_map flat_fixed flat_bits map app f_path b_path fst].
    - reflexivity.
    - constructor. exact IH.
    - constructor. exact IH.
    - rewrite <- Permutation_middle. constructor. exact IH. }
  assert (Hd0 : desc ix0).
  { apply sorted_indices_desc. rewrite make_indices_paths. eapply Permutation_NoDup; [symmetry; exact Hcov|exact Hnd]. }
  destruct (link_vars_total vars 0 ix0 Hd0) as (vars' & ix' & El).
  { eapply Permutation_Forall; [symmetry; apply sort_desc_perm|]. rewrite Forall_forall. intros v Hv.
    destruct (Forall2_in_r _ _ _ _ Hvs Hv) as (e & He & E1 & _). apply filter_In in He as [He _].
    eapply Permutation_in; [apply Permutation_map; symmetry; apply sort_desc_perm|].
    rewrite make_indices_paths. eapply Permutation_in; [symmetry; exact Hcov|]. rewrite E1. apply in_map. exact He. }
  fold ix0. rewrite El. cbn [bind]. eexists. reflexivity.
Qed.

Lemma flat_length t : forall q, length (flat t q) <= ty_size t.
Proof.
  assert (G : forall A (g : A -> ty) l, Forall (fun a => forall q, length (flat (g a) q) <= ty_size (g a)) l ->
    forall q k, length (flat_members (fun a => flat (g a)) l q k) <= list_sum (map (fun a => ty_size (g a)) l)).
  { intros A g l HF. induction HF as [|a l Ha Hl IH]; intros q k; cbn [flat_members map list_sum fold_right]; [cbn; lia|].
    rewrite app_length. specialize (Ha (q ++ [k])). specialize (IH q (S k)). unfold list_sum in IH. lia. }
  induction t using ty_ind'; intros q; cbn [flat ty_size length]; try lia.
  - specialize (G _ (fun t => t) ts H q 0). apply le_S. exact G.
  - specialize (G _ (fun f => snd f) fs H q 0). apply le_S. exact G.
Qed.

Lemma ty_size_pos t : 1 <= ty_size t.
Proof. destruct t; cbn [ty_size]; lia. Qed.

Lemma list_sum_length {A} (g : A -> nat) l : (forall a, 1 <= g a) -> length l <= list_sum (map g l).
Proof.
  intros H. induction l as [|a l IH]; cbn [map list_sum fold_right length]; [cbn; lia|].
  specialize (H a). unfold list_sum in IH. lia.
Qed.

Lemma flat_tag_cases t : forall q e cs, In (e, KTag cs) (flat t q) -> length cs <= ty_size t.
Proof.
  induction t using ty_ind'; intros q e cs' Hin; cbn [flat] in Hin.
  - destruct Hin.
  - destruct Hin as [E|[]]. discriminate.
  - destruct Hin as [E|[]]. discriminate.
  - apply (flat_members_In (fun t => t)) in Hin as (t & q' & Ht & Hin). rewrite Forall_forall in H.
    specialize (H _ Ht _ _ _ Hin). cbn [ty_size]. pose proof (in_list_sum ty_size _ _ Ht). lia.
  - apply (flat_members_In (fun f => snd f)) in Hin as (t & q' & Ht & Hin). rewrite Forall_forall in H.
    specialize (H _ Ht _ _ _ Hin). cbn [ty_size].
    pose proof (in_list_sum (fun f : str * ty => ty_size (snd f)) _ _ Ht). cbv beta in *. lia.
  - destruct Hin as [E|[]]. injection E as <- <-. cbn [ty_size].
    pose proof (list_sum_length (fun c : str * ty => ty_size (snd c)) cs (fun c => ty_size_pos (snd c))). lia.
Qed.

Lemma tag_bits_le cs : (Z.of_nat (length cs) < 2 ^ 64)%Z -> tag_bits cs <= 64.
Proof.
  intros H. unfold tag_bits. destruct (required_bits_spec (Z.of_nat (length cs - 1))) as (H1 & _); lia.
Qed.

Lemma members_total {A B} (f : A -> path -> outcome B) l q :
  (forall a q', In a l -> exists b, f a q' = Ret b) -> forall k, exists r, members f l q k = Ret r.
Proof.
  intros H. induction l as [|a l IH]; intros k; cbn [members]; [eexists; reflexivity|].
  destruct (H a (q ++ [k]) ltac:(left; reflexivity)) as [b Hb]. rewrite Hb. cbn [bind].
  destruct IH with (k := S k) as [r Hr]; [intros a' q' Ha'; apply H; right; exact Ha'|]. rewrite Hr.
  eexists. reflexivity.
Qed.

Lemma finish_unrolled t q fx bs vs :
  small t -> unroll_type t q = Ret (fx, bs, vs) -> exists l, finish_layout (fx, bs, vs) = Ret l.
Proof.
  intros Hs Hu. destruct (unroll_flat t q fx bs vs Hu) as (-> & -> & Hvs). unfold small in Hs.
  apply finish_layout_total; [apply flat_nodup|exact Hvs| | |].
  - intros v cases c Hv Hk Hc. destruct (var_rel_enum _ _ _ _ _ Hvs Hv Hk Hc) as (cs & cse & i & H1 & H2 & _ & H4).
    apply (lo_align _ _ (calculate_layout_ok _ _ _ H4)).
  - intros e cs Hin. pose proof (flat_tag_cases _ _ _ _ Hin). pose proof (tag_bits_le cs). lia.
  - pose proof (flat_length t q). lia.
Qed.

Lemma unroll_total t : inhabited_type t -> small t -> forall q, exists u, unroll_type t q = Ret u.
Proof.
  induction t using ty_ind'; intros Hi Hs q; cbn [unroll_type].
  - eexists; reflexivity.
  - eexists; reflexivity.
  - eexists; reflexivity.
  - inversion Hi as [| | |? Hne HF| |]; subst. destruct ts as [|t0 ts0]; [congruence|]. cbn [length].
    change (0 <? S (length ts0)) with true. cbv iota. rewrite Forall_forall in *.
    destruct (members_total unroll_type (t0 :: ts0) q) with (k := 0) as [us E].
    + intros t q' Ht. apply H; [exact Ht|apply HF; exact Ht|]. pose proof (in_list_sum ty_size _ _ Ht).
      unfold small in *. cbn [ty_size] in Hs. lia.
    + rewrite E. eexists. reflexivity.
  - inversion Hi as [| | | |? Hne HF|]; subst. destruct fs as [|t0 ts0]; [congruence|]. cbn [length].
    change (0 <? S (length ts0)) with true. cbv iota. rewrite Forall_forall in *.
    destruct (members_total (fun f q => unroll_type (snd f) q) (t0 :: ts0) q) with (k := 0) as [us E].
    + intros t q' Ht. apply H; [exact Ht|apply HF; exact Ht|].
      pose proof (in_list_sum (fun f : str * ty => ty_size (snd f)) _ _ Ht).
      unfold small in *. cbn [ty_size] in Hs. cbv beta in *. lia.
    + rewrite E. eexists. reflexivity.
  - inversion Hi as [| | | | |? Hne HF]; subst. destruct cs as [|t0 ts0]; [congruence|]. cbn [length].
    change (0 <? S (length ts0)) with true. cbv iota zeta. rewrite Forall_forall in *.
    destruct (members_total (fun c q => u <- unroll_type (snd c) q ;; finish_layout u) (t0 :: ts0) q) with (k := 0) as [us E].
    + intros t q' Ht.
      assert (Hst : small (snd t)).
      { pose proof (in_list_sum (fun f : str * ty => ty_size (snd f)) _ _ Ht).
        unfold small in *. cbn [ty_size] in Hs. cbv beta in *. lia. }
      destruct (H _ Ht (HF _ Ht) Hst q') as [[[fx bs] vs] Hu]. rewrite Hu. cbn [bind].
      eapply finish_unrolled; eassumption.
    + rewrite E. eexists. reflexivity.
Qed.

Lemma layout_total t q : inhabited_type t -> small t -> exists l, calculate_layout t q = Ret l.
Proof.
  intros Hi Hs. unfold calculate_layout. destruct (unroll_total t Hi Hs q) as [[[fx bs] vs] Hu]. rewrite Hu. cbn [bind].
  eapply finish_unrolled; eassumption.
Qed.

(** Conversely a type with an empty tuple, struct or enum has no layout. *)
Lemma members_all {A B} (f : A -> path -> outcome B) l q k r a :
  members f l q k = Ret r -> In a l -> exists q' b, f a q' = Ret b.
Proof.
  intros H Ha. apply In_nth_error in Ha as [i Hi]. destruct (members_nth_l _ _ _ _ _ _ _ H Hi) as (b & _ & Hb).
  eexists _, _. exact Hb.
Qed.

Lemma unroll_inhabited t : forall q u, unroll_type t q = Ret u -> inhabited_type t.
Proof.
  induction t using ty_ind'; intros q u Hu; cbn [unroll_type] in Hu; try constructor.
  - intros ->. discriminate.
  - destruct (0 <? length ts); [|discriminate]. inv_bind Hu. rewrite Forall_forall in *. intros t Ht.
    destruct (members_all _ _ _ _ _ _ Ha Ht) as (q' & b & Hb). eapply H; eassumption.
  - intros ->. discriminate.
  - destruct (0 <? length fs); [|discriminate]. inv_bind Hu. rewrite Forall_forall in *. intros t Ht.
    destruct (members_all _ _ _ _ _ _ Ha Ht) as (q' & b & Hb). eapply H; eassumption.
  - intros ->. discriminate.
  - destruct (0 <? length cs); [|discriminate]. inv_bind Hu. rewrite Forall_forall in *. intros t Ht.
    destruct (members_all _ _ _ _ _ _ Ha Ht) as (q' & b & Hb). inv_bind Hb. eapply H; eassumption.
Qed.

Lemma layout_inhabited t q l : calculate_layout t q = Ret l -> inhabited_type t.
Proof. intros H. unfold calculate_layout in H. inv_bind H. eapply unroll_inhabited. exact Ha. Qed.

(** ** Tag containers have at most 64 bits *)

Lemma primitive_for_bits_narrow n p : primitive_for_bits n = Ret p -> n <= 64 -> prim_size p <= 8.
Proof.
  unfold primitive_for_bits. destruct (Nat.leb_spec n 128); [|discriminate]. intros H' H64. injection H' as <-.
  destruct (Nat.ltb_spec 64 n); [lia|].
  destruct (Nat.ltb_spec 32 n); [cbn; lia|].
  destruct (Nat.ltb_spec 16 n); [cbn; lia|].
  destruct (Nat.ltb_spec 8 n); cbn; lia.
Qed.

Lemma alloc_narrow bs : forall cs r cs2,
  alloc bs cs = Ret (r, cs2) -> Forall (fun b => b_bits b <= 64) bs ->
  Forall (fun c => prim_size (c_prim c) <= 8) cs -> Forall (fun c => prim_size (c_prim c) <= 8) cs2.
Proof.
  induction bs as [|b bs IH]; intros cs r cs2 H Hb Hc; cbn [alloc] in H.
  - injection H as <- <-. exact Hc.
  - inversion Hb as [|? ? Hb1 Hb2]; subst. destruct (place cs 0 (b_bits b)) as [[[i o] cs1]|] eqn:Ep.
    + inv_bind H. destruct a as [r' cs2']. injection H as H1 H2; subst r cs2. eapply IH; [exact Ha|exact Hb2|].
      destruct (place_spec _ _ _ _ _ _ Ep) as (j & c & _ & Hj & _ & _ & ->).
      rewrite Forall_forall in *. intros x Hx. apply In_nth_error in Hx as [n Hn]. rewrite nth_error_update in Hn.
      destruct (n =? j).
      * destruct (nth_error cs n); cbn [option_map] in Hn; [|discriminate]. injection Hn as <-. cbn [c_prim].
        apply Hc. eapply nth_error_In. exact Hj.
      * apply Hc. eapply nth_error_In. exact Hn.
    + inv_bind H. inv_bind H. inv_bind H. destruct a1 as [r' cs2']. injection H as H1 H2; subst r cs2.
      eapply IH; [exact Ha1|exact Hb2|]. apply Forall_app. split; [exact Hc|]. constructor; [|constructor].
      cbn [c_prim]. eapply primitive_for_bits_narrow; eassumption.
Qed.

Lemma finish_layout_narrow fl vs l :
  (forall q cs, In (q, KTag cs) fl -> tag_bits cs <= 64) ->
  finish_layout (flat_map flat_fixed fl, flat_map flat_bits fl, vs) = Ret l ->
  Forall narrow (l_fixed l).
Proof.
  intros Hbits H. unfold finish_layout, allocate_bitfields in H.
  set (bs := flat_map flat_bits fl) in *. set (sbs := sort_desc (fun a b => b_bits a <? b_bits b) bs) in *.
  assert (Hsb : Forall (fun b => b_bits b <= 64) sbs).
  { eapply Permutation_Forall; [symmetry; apply sort_desc_perm|]. rewrite Forall_forall. intros b Hb.
    apply in_flat_map in Hb as ([q k] & Hin & Hb). destruct k as [p| |cs]; cbn in Hb; try (destruct Hb; fail).
    destruct Hb as [<-|[]]. cbn [b_bits]. eapply Hbits. exact Hin. }
  inv_bind H. destruct a as [bits conts]. inv_bind Ha. destruct a as [r cs]. injection Ha as <- <-.
  pose proof (alloc_narrow _ _ _ _ Ha0 Hsb (Forall_nil _)) as Hcs.
  inv_bind H. destruct a as [placed size]. inv_bind H. inv_bind H. inv_bind H. inv_bind H. destruct a2 as [vars' ix'].
  injection H as <-. cbn [l_fixed]. apply Forall_app.
  set (sorted := sort_desc (fun l0 r0 => field_size l0 <? field_size r0) (flat_map flat_fixed fl ++ cont_fields 0 cs)) in *.
  assert (Hperm : Permutation sorted (flat_map flat_fixed fl ++ cont_fields 0 cs)) by apply sort_desc_perm.
  assert (Hnb : Forall no_bit sorted).
  { eapply Permutation_Forall; [symmetry; exact Hperm|]. apply Forall_app. split; [apply flat_fixed_no_bit|].
    rewrite Forall_forall. intros f Hf. apply cont_fields_In in Hf as (j & c & _ & ->). exact I. }
  destruct (assign_offsets_spec _ _ _ _ Ha) as (_ & O1 & _ & _).
  { apply sort_desc_key. }
  { rewrite Forall_forall. intros f _. apply Nat.divide_0_r. }
  { exact Hnb. }
  split.
  - rewrite Forall_forall. intros f Hf. apply filter_In in Hf as [Hf _].
    destruct (Forall2_in_r _ _ _ _ O1 Hf) as (g & Hg & [_ Ek]). rewrite Forall_forall in Hnb. specialize (Hnb _ Hg).
    unfold no_bit in Hnb. unfold narrow. rewrite <- Ek. destruct (f_kind g); auto. destruct Hnb.
  - pose proof (bit_fields_spec _ _ _ Ha3) as HB. rewrite Forall_forall. intros f Hf.
    destruct (Forall2_in_r _ _ _ _ HB Hf) as (b & Hb & _ & p & Hp & Ek). unfold narrow. rewrite Ek.
    destruct (find_container_spec _ _ _ _ Hp) as (g & Hg & Eg & _).
    destruct (Forall2_in_r _ _ _ _ O1 Hg) as (h & Hh & [_ Eh]). rewrite Eg in Eh.
    apply (Permutation_in _ Hperm) in Hh. apply in_app_or in Hh as [Hh|Hh].
    + exfalso. apply in_flat_map in Hh as ([q [p'| |cs']] & _ & Hh); cbn in Hh; try (destruct Hh as [<-|[]]; discriminate Eh).
      destruct Hh.
    + apply cont_fields_In in Hh as (j & c & Hj & ->). injection Eh as E1 E2. subst p.
      rewrite Forall_forall in Hcs. apply Hcs. eapply nth_error_In. exact Hj.
Qed.

Lemma calculate_layout_narrow t q l : small t -> calculate_layout t q = Ret l -> Forall narrow (l_fixed l).
Proof.
  intros Hs H. unfold calculate_layout in H. inv_bind H.
  destruct a as [[fx bs] vs]. destruct (unroll_flat t q fx bs vs Ha) as (-> & -> & Hvs).
  eapply finish_layout_narrow; [|exact H]. intros e cs Hin. pose proof (flat_tag_cases _ _ _ _ Hin).
  apply tag_bits_le. unfold small in Hs. lia.
Qed.
