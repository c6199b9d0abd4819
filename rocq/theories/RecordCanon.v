(** * Records found in bytes (C84): a readable record is its own encoding *)

From Coq Require Import Permutation ZifyBool ZifyNat ZifyN.
From Verif Require Import Base BaseFacts UtilModel UtilSpec UtilProofs StrModel TypesModel TypesSpec TypesProofs.
From Verif Require Import MarshalModel MarshalSpec ListFacts LayoutProofs FieldProofs LayoutTotal PresentsFacts MarshalProofs MarshalMore MarshalTop.
From Verif Require Import RecordCanonSpec.

(** ** One field *)

Lemma write_same {A} (l : list A) o n : o + n <= length l -> write l o (slice l o n) = l.
Proof.
  intros H. apply list_ext. intros i. rewrite nth_error_write by (rewrite slice_length; lia). rewrite slice_length by exact H.
  destruct ((o <=? i) && (i <? o + n)) eqn:E; [|reflexivity]. unfold slice. rewrite nth_error_firstn, nth_error_skipn.
  destruct (Nat.ltb_spec (i - o) n); [|lia]. f_equal. lia.
Qed.

Lemma decode_prim_inv p bs z : length bs = prim_size p -> decode_prim p bs = Ret z ->
  in_range p z /\ le_bytes (prim_size p) z = bs.
Proof.
  intros L H. pose proof (le_val_range bs) as R. rewrite L, pow256 in R.
  assert (E : le_bytes (prim_size p) (le_val bs) = bs) by (rewrite <- L; apply le_bytes_le_val).
  assert (S0 : forall h, (2 ^ (prim_bits p - 1) = h)%Z -> (2 ^ prim_bits p = 2 * h)%Z -> (0 < h)%Z ->
    (if (2 ^ (prim_bits p - 1) <=? le_val bs)%Z then Ret (le_val bs - 2 ^ prim_bits p)%Z else Ret (le_val bs)) = Ret z ->
    (- h <= z < h)%Z /\ le_bytes (prim_size p) z = bs).
  { intros h E1 E2 Hh Hz. rewrite E1, E2 in Hz. change (8 * Z.of_nat (prim_size p))%Z with (prim_bits p) in R. rewrite E2 in R.
    assert (RI : forall a b : Z, Ret a = Ret b -> a = b) by congruence.
    destruct (Z.leb_spec h (le_val bs)); apply RI in Hz; subst z; (split; [lia|]); [|exact E].
    rewrite <- le_bytes_mod, pow256. change (8 * Z.of_nat (prim_size p))%Z with (prim_bits p). rewrite E2.
    replace ((le_val bs - 2 * h) mod (2 * h))%Z with (le_val bs); [exact E|].
    rewrite <- (Z_mod_plus_full _ 1), Z.mod_small; lia. }
  unfold decode_prim in H.
  destruct p; cbn [is_signed andb] in H;
    try (injection H as <-; split; [exact R|exact E]; fail);
    try (destruct (S0 _ eq_refl eq_refl eq_refl H) as [S1 S2]; split; [exact S1|exact S2]; fail).
  - destruct (Z.leb_spec (le_val bs) 1); [|discriminate]. injection H as <-. split; [cbn [in_range]; lia|exact E].
  - destruct (is_char (le_val bs)) eqn:Ec; [|discriminate]. injection H as <-. split; [exact Ec|exact E].
Qed.

Lemma put_get_bits o n v w : (0 <= o)%Z -> (0 <= n)%Z -> (o + n <= w)%Z -> (w <= 64)%Z -> (0 <= v < 2 ^ w)%Z ->
  put_bits o n v (get_bits o n v) w = v.
Proof.
  intros Ho Hn H Hw Hv. pose proof (put_bits_range o n v (get_bits o n v) w Ho Hn H Hv) as HP.
  apply Z.bits_inj'. intros i Hi. destruct (Z.ltb_spec i w) as [Hlt|Hge].
  - rewrite put_bits_spec by lia. destruct ((o <=? i) && (i <? o + n))%Z eqn:E; [|reflexivity].
    rewrite get_bits_spec by lia. replace (i - o <? n)%Z with true by lia. cbn [andb]. f_equal. lia.
  - rewrite (testbit_small _ w), (testbit_small v w) by lia. reflexivity.
Qed.

Lemma le_bytes_slice data o n : o + n <= length data -> le_bytes n (le_val (slice data o n)) = slice data o n.
Proof. intros H. pose proof (le_bytes_le_val (slice data o n)) as E. rewrite slice_length in E by exact H. exact E. Qed.

(** Storing what was read changes nothing. *)
Lemma encode_fixed_back pf src vo data f z :
  sound_field pf vo f -> vo <= length data -> rd pf f data = Ret z -> ans src f = Ret z ->
  fits f z /\ encode_fixed pf src data f = Ret data.
Proof.
  intros ((H1 & H2 & H3) & H4 & H5) Hlen Hrd Hans. unfold rd, ans, fits in *. unfold storable in H4. unfold narrow in H5.
  unfold field_size in H1. destruct (f_kind f) as [p| |i p|p o n] eqn:Ek.
  - unfold read_prim in Hrd. rewrite raw_read_ok in Hrd by lia. cbn [bind] in Hrd.
    apply decode_prim_inv in Hrd as [R E]; [|apply slice_length; lia]. split; [exact R|].
    unfold encode_fixed. rewrite Ek, Hans. cbn [bind]. rewrite E, raw_write_ok by (rewrite slice_length; lia).
    rewrite write_same by lia. reflexivity.
  - inv_bind Hrd. unfold read_length in Ha. rewrite raw_read_ok in Ha by lia. cbn [bind] in Ha. injection Ha as <-.
    injection Hrd as <-. pose proof (slice_le_range data (f_offset f) 4 ltac:(lia)) as R. change (8 * Z.of_nat 4)%Z with 32%Z in R.
    rewrite Z2Nat.id in * by lia. split; [lia|]. inv_bind Hans. injection Hans as E.
    unfold encode_fixed. rewrite Ek, Ha. cbn [bind]. rewrite E. destruct (Z.leb_spec (le_val (slice data (f_offset f) 4)) (2 ^ 32 - 1)); [|lia].
    cbn [bind]. rewrite le_bytes_slice by lia.
    rewrite raw_write_ok by (rewrite slice_length; lia). rewrite write_same by lia. reflexivity.
  - destruct H3.
  - destruct H3 as [Hu Hb]. destruct H4 as [H4 H4'].
    rewrite (read_tag_value pf f _ p o n) in Hrd by (try assumption; lia). cbn [bind] in Hrd. injection Hrd as <-.
    pose proof (get_bits_range (Z.of_nat o) (Z.of_nat n) (le_val (slice data (f_offset f) (prim_size p))) ltac:(lia)) as R.
    rewrite Z2Nat.id in * by lia. split; [exact R|]. inv_bind Hans. injection Hans as E.
    rewrite (encode_tag_value pf src data f p o n a) by (try assumption; lia). rewrite E.
    pose proof (slice_le_range data (f_offset f) (prim_size p) ltac:(lia)) as HV.
    rewrite put_get_bits by (unfold prim_bits; lia).
    rewrite le_bytes_slice, write_same by lia. reflexivity.
Qed.

Lemma encode_fixed_back_all pf src vo data fx :
  Forall (sound_field pf vo) fx -> vo <= length data ->
  Forall (fun f => exists z, rd pf f data = Ret z /\ ans src f = Ret z) fx ->
  foldM (encode_fixed pf src) fx data = Ret data.
Proof.
  intros Hs Hlen Ha. induction fx as [|f fx IH]; cbn [foldM]; [reflexivity|].
  inversion Hs as [|? ? Hf Hs']; subst. inversion Ha as [|? ? (z & Hr & Hz) Ha']; subst.
  destruct (encode_fixed_back pf src vo data f z Hf Hlen Hr Hz) as [_ E]. rewrite E. cbn [bind]. apply IH; assumption.
Qed.

(** ** The variable part as found in the bytes *)

Section Walk.
Context (pf : profile) (fx : list ffield) (data : list byte).

Inductive laid : list (vfield layout) -> nat -> nat -> Prop :=
| ld_nil off : laid [] off off
| ld_str v vs off off' f n :
    v_kind v = VString -> nth_error fx (v_fixed v) = Some f -> read_length data (f_offset f) = Ret n ->
    laid vs (off + n) off' -> laid (v :: vs) off off'
| ld_enum v vs off off' cases f k c n :
    v_kind v = VEnum cases -> nth_error fx (v_fixed v) = Some f -> read_tag pf f data = Ret k -> off <= length data ->
    nth_error cases k = Some c -> encoding_size pf c (skipn off data) = Ret n ->
    laid vs (off + n) off' -> laid (v :: vs) off off'.

Lemma laid_intro vs : forall off off', var_offset_loop pf (encoding_size pf) fx data vs off = Ret off' -> laid vs off off'.
Proof.
  induction vs as [|v vs IH]; intros off off' H; cbn [var_offset_loop] in H.
  - injection H as <-. constructor.
  - rewrite pick_nth in H. destruct (nth_error fx (v_fixed v)) as [f|] eqn:Ef; [|discriminate].
    destruct (v_kind v) as [|cases] eqn:Ek.
    + inv_bind H. eapply ld_str; eauto.
    + inv_bind H. inv_bind H. unfold index_from in Ha0. destruct (Nat.leb_spec off (length data)); [|discriminate]. injection Ha0 as <-.
      inv_bind H. rewrite pick_nth in Ha0. destruct (nth_error cases a) as [c|] eqn:Ec; [|discriminate].
      eapply ld_enum; eauto.
Qed.

Lemma laid_le vs off off' : laid vs off off' -> off <= off'.
Proof. induction 1; lia. Qed.

Lemma laid_at vs off off' : laid vs off off' -> forall j,
  exists o, var_offset_loop pf (encoding_size pf) fx data (firstn j vs) off = Ret o /\ laid (skipn j vs) o off'.
Proof.
  induction 1 as [off|v vs off off' f n Ek Ef Hn Hl IH|v vs off off' cases f k c n Ek Ef Hk Hle Hc Hn Hl IH]; intros j.
  - exists off. rewrite firstn_nil, skipn_nil. split; [reflexivity|constructor].
  - destruct j as [|j]; [exists off; split; [reflexivity|eapply ld_str; eauto]|].
    cbn [firstn skipn var_offset_loop]. rewrite pick_nth, Ef, Ek, Hn. cbn [bind]. apply IH.
  - destruct j as [|j]; [exists off; split; [reflexivity|eapply ld_enum; eauto]|].
    cbn [firstn skipn var_offset_loop]. rewrite pick_nth, Ef, Ek, Hk. cbn [bind]. unfold index_from.
    destruct (Nat.leb_spec off (length data)); [|lia]. cbn [bind]. rewrite pick_nth, Hc, Hn. cbn [bind]. apply IH.
Qed.
End Walk.

Lemma skipn_nth {A} (l : list A) j a : nth_error l j = Some a -> exists r, skipn j l = a :: r /\ skipn (S j) l = r.
Proof.
  revert j. induction l as [|b l IH]; intros [|j] H; try discriminate.
  - injection H as ->. exists l. split; reflexivity.
  - apply IH. exact H.
Qed.

(** ** What the marshaller answers *)

Definition same_below_sym s s' q (H : same_below s s' q) : same_below s' s q.
Proof. intros q' Hq. destruct (H q' Hq) as (A & B & C & D). repeat split; intros; symmetry; auto. Defined.

Lemma size_shape pf l data n : encoding_size pf l data = Ret n ->
  exists off, laid pf (l_fixed l) data (l_vars l) (l_var_off l) off /\ align_nat off (l_align l) = Ret n /\ l_var_off l <= off <= n.
Proof.
  intros H. destruct l as [al vo ix fx vs]. cbn [encoding_size l_fixed l_vars l_var_off l_align] in *. inv_bind H.
  exists a. apply laid_intro in Ha. split; [exact Ha|]. split; [exact H|]. apply laid_le in Ha.
  destruct (align_nat_inv _ _ _ H) as (_ & Ha0 & _ & ->). pose proof (align_up_ge a al Ha0). lia.
Qed.

Section Level.
Context (pf : profile) (t : ty) (q : path) (l : layout) (data : list byte) (n : nat).
Context (Hcalc : calculate_layout t q = Ret l) (Henc : encoding_size pf l data = Ret n) (Hn : n <= length data).

Let Hl : lay_ok (flat t q) l := calculate_layout_ok _ _ _ Hcalc.
Notation M := (marshaller_source pf l data).

(** The variable fields of the record, with what the accessors answer for each. *)
Inductive held : list (vfield layout) -> nat -> nat -> Prop :=
| hd_nil off : held [] off off
| hd_str v vs off off' k :
    v_kind v = VString -> src_len M (v_path v) = Ret k -> src_bytes M (v_path v) = Ret (slice data off k) ->
    off + k <= length data -> (Z.of_nat k < 2 ^ 32)%Z -> held vs (off + k) off' -> held (v :: vs) off off'
| hd_enum v vs off off' cases k c m :
    v_kind v = VEnum cases -> src_tag M (v_path v) = Ret k -> nth_error cases k = Some c ->
    off + m <= length data -> encoding_size pf c (skipn off data) = Ret m ->
    same_below (marshaller_source pf c (skipn off data)) M (v_path v ++ [k]) ->
    held vs (off + m) off' -> held (v :: vs) off off'.

Lemma level_shape : exists off, laid pf (l_fixed l) data (l_vars l) (l_var_off l) off /\ align_nat off (l_align l) = Ret n /\
  l_var_off l <= off <= n.
Proof. exact (size_shape pf l data n Henc). Qed.

Lemma prim_entry e p : In (e, KPrim p) (flat t q) ->
  exists f, In f (l_fixed l) /\ f_path f = e /\ f_kind f = FPrim p /\ src_prim M p e = read_prim p data (f_offset f).
Proof.
  intros Hin. destruct (index_entry t q l Hcalc e _ Hin) as (j & x & f & Hj & Ex & Hsr & Hfo & Hf & Ef & Hrel).
  destruct (f_kind f) as [p'| |i' p'|p' o' n'] eqn:Ek; cbn [kind_rel] in Hrel; try (destruct Hrel; fail). subst p'.
  exists f. repeat split; try assumption. cbn [marshaller_source src_prim]. unfold get_primitive.
  rewrite (navigate_hit pf t q l Hcalc data e x j Hj Hsr). cbn [bind]. rewrite Hfo. cbn [bind]. rewrite Ek.
  replace (prim_eqb p p) with true by (destruct p; reflexivity). reflexivity.
Qed.

Lemma str_entry e : In (e, KStr) (flat t q) ->
  exists x f, In x (l_indices l) /\ i_path x = e /\ In f (l_fixed l) /\ f_path f = e /\ f_kind f = FLength /\
    src_len M e = read_length data (f_offset f) /\
    src_bytes M e = (o <- variable_field_offset pf l (i_var x) data ;; k <- read_length data (f_offset f) ;; raw_read data o k).
Proof.
  intros Hin. destruct (index_entry t q l Hcalc e _ Hin) as (j & x & f & Hj & Ex & Hsr & Hfo & Hf & Ef & Hrel).
  destruct (f_kind f) as [p'| |i' p'|p' o' n'] eqn:Ek; cbn [kind_rel] in Hrel; try (destruct Hrel; fail).
  exists x, f. split; [eapply nth_error_In; exact Hj|]. split; [exact Ex|]. split; [exact Hf|]. split; [exact Ef|]. split; [exact Ek|].
  cbn [marshaller_source src_len src_bytes]. unfold get_length, get_bytes.
  rewrite (navigate_hit pf t q l Hcalc data e x j Hj Hsr). cbn [bind]. rewrite Hfo. cbn [bind]. rewrite Ek.
  split; [reflexivity|].
  destruct (var_entry t q l Hcalc e KStr x Hin eq_refl (nth_error_In _ _ Hj) Ex) as (vf & Hvf & [Ep Hvk]). cbn [fst snd] in Ep, Hvk.
  rewrite Hvf, Hvk. reflexivity.
Qed.

Lemma tag_entry e cs : In (e, KTag cs) (flat t q) ->
  exists f, In f (l_fixed l) /\ f_path f = e /\ (exists p o, f_kind f = FBit p o (tag_bits cs)) /\
    src_tag M e = read_tag pf f data.
Proof.
  intros Hin. destruct (index_entry t q l Hcalc e _ Hin) as (j & x & f & Hj & Ex & Hsr & Hfo & Hf & Ef & Hrel).
  destruct (f_kind f) as [p'| |i' p'|p' o' n'] eqn:Ek; cbn [kind_rel] in Hrel; try (destruct Hrel; fail). subst n'.
  exists f. split; [exact Hf|]. split; [exact Ef|]. split; [eauto|].
  cbn [marshaller_source src_tag]. unfold get_case_tag.
  rewrite (navigate_hit pf t q l Hcalc data e x j Hj Hsr). cbn [bind]. rewrite Hfo. reflexivity.
Qed.

Lemma fixed_unique f g : In f (l_fixed l) -> In g (l_fixed l) -> f_path f = f_path g -> f = g.
Proof.
  intros Hf Hg E. eapply (NoDup_map_inj f_path); [|exact Hf|exact Hg|exact E].
  eapply Permutation_NoDup; [symmetry; apply (lo_paths _ _ Hl)|]. apply flat_nodup.
Qed.

Lemma level_held : exists off, held (l_vars l) (l_var_off l) off /\ align_nat off (l_align l) = Ret n /\
  l_var_off l <= off <= n.
Proof.
  destruct level_shape as (off & Hla & Hal & Hle). exists off. split; [|split; assumption].
  assert (G : forall k j o, length (l_vars l) - j = k -> j <= length (l_vars l) ->
    laid pf (l_fixed l) data (skipn j (l_vars l)) o off -> variable_field_offset pf l j data = Ret o ->
    held (skipn j (l_vars l)) o off).
  { induction k as [|k IH]; intros j o Hk Hj Hd Hv.
    - rewrite skipn_all2 in * by lia. inversion Hd; subst. constructor.
    - destruct (nth_error (l_vars l) j) as [w|] eqn:Ew; [|apply nth_error_None in Ew; lia].
      destruct (skipn_nth _ _ _ Ew) as (r & Er & Er'). rewrite Er in *.
      assert (Hnext : forall o', laid pf (l_fixed l) data r o' off ->
        var_offset_loop pf (encoding_size pf) (l_fixed l) data (firstn (S j) (l_vars l)) (l_var_off l) = Ret o' ->
        held r o' off).
      { intros o' Hd' Hv'. rewrite <- Er'. apply IH; [lia| |rewrite Er'; exact Hd'|].
        - assert (j < length (l_vars l)) by (apply nth_error_Some; congruence). lia.
        - unfold variable_field_offset. assert (j < length (l_vars l)) by (apply nth_error_Some; congruence).
          destruct (Nat.leb_spec (S j) (length (l_vars l))); [|lia]. cbn [bind]. exact Hv'. }
      destruct (laid_at _ _ _ _ _ _ Hla (S j)) as (o1 & Ho1 & Hd1). rewrite Er' in Hd1. specialize (Hnext _ Hd1 Ho1).
      assert (Eo1 : forall m, (forall rest, var_offset_loop pf (encoding_size pf) (l_fixed l) data (w :: rest) o =
          var_offset_loop pf (encoding_size pf) (l_fixed l) data rest (o + m)) -> o1 = o + m).
      { intros m Hm. assert (Hvo : var_offset_loop pf (encoding_size pf) (l_fixed l) data (firstn j (l_vars l)) (l_var_off l) = Ret o).
        { unfold variable_field_offset in Hv. destruct (j <=? length (l_vars l)); [exact Hv|discriminate]. }
        assert (Hf : firstn (S j) (l_vars l) = firstn j (l_vars l) ++ [w]).
        { clear - Ew. revert j Ew. induction (l_vars l) as [|b vs IHl]; intros [|j] Ew; try discriminate.
          - injection Ew as ->. reflexivity.
          - cbn [firstn app]. f_equal. apply IHl. exact Ew. }
        rewrite Hf in Ho1. assert (Happ : forall a b s, var_offset_loop pf (encoding_size pf) (l_fixed l) data (a ++ b) s =
          (s' <- var_offset_loop pf (encoding_size pf) (l_fixed l) data a s ;; var_offset_loop pf (encoding_size pf) (l_fixed l) data b s')).
        { clear. induction a as [|v a IHa]; intros b s; cbn [app var_offset_loop]; [reflexivity|].
          rewrite !pick_nth. destruct (nth_error (l_fixed l) (v_fixed v)); [|reflexivity]. destruct (v_kind v).
          - destruct (read_length data (f_offset f)); cbn [bind]; try reflexivity. apply IHa.
          - destruct (read_tag pf f data); cbn [bind]; try reflexivity. destruct (index_from data s); cbn [bind]; try reflexivity.
            destruct (pick _ _ _); cbn [bind]; try reflexivity. apply IHa. }
        rewrite Happ, Hvo in Ho1. cbn [bind] in Ho1. rewrite Hm in Ho1. cbn [var_offset_loop] in Ho1. congruence. }
      pose proof (nth_error_In _ _ Ew) as Hw. destruct (var_flat t q l Hcalc w Hw) as (kd & Hin & _ & [_ Hr]). cbn [fst snd] in Hr.
      destruct (lo_ixv _ _ Hl _ _ Ew) as (y & Hy & Ey & Eyv).
      pose proof (lo_vfix _ _ Hl) as Hvf. rewrite Forall_forall in Hvf. destruct (Hvf _ Hw) as (g & Hg & Eg).
      inversion Hd as [|? ? ? ? f m Ek Ef Hm Hd2|? ? ? ? cases f k0 c m Ek Ef Hk0 Hle0 Hc Hm Hd2]; subst.
      + assert (f = g) as -> by congruence. destruct kd as [p| |cs]; [destruct Hr| |destruct Hr as (ls & Hr & _); congruence].
        assert (o1 = o + m) as ->.
        { apply Eo1. intros rest. cbn [var_offset_loop]. rewrite pick_nth, Hg, Ek, Hm. reflexivity. }
        destruct (str_entry _ Hin) as (x & f' & Hx & Ex & Hf' & Ef' & Ekf & Esl & Esb).
        assert (f' = g) as -> by (apply fixed_unique; [exact Hf'|eapply nth_error_In; exact Hg|congruence]).
        assert (x = y) as -> by (apply (index_unique t q l Hcalc); [exact Hx|exact Hy|congruence]).
        rewrite Hv, Hm in Esb. cbn [bind] in Esb. apply laid_le in Hd2.
        apply hd_str with (k := m); [exact Ek|congruence|rewrite Esb; apply raw_read_ok; lia|lia| |exact Hnext].
        unfold read_length in Hm. pose proof (lo_place _ _ Hl) as Hp. rewrite Forall_forall in Hp.
        destruct (Hp _ Hf') as (P1 & _ & _). unfold field_size in P1. rewrite Ekf in P1.
        rewrite raw_read_ok in Hm by lia. cbn [bind] in Hm. injection Hm as <-.
        pose proof (slice_le_range data (f_offset g) 4 ltac:(lia)) as R. change (8 * Z.of_nat 4)%Z with 32%Z in R. lia.
      + assert (f = g) as -> by congruence. destruct kd as [p| |cs]; [destruct Hr|congruence|].
        assert (o1 = o + m) as ->.
        { apply Eo1. intros rest. cbn [var_offset_loop]. rewrite pick_nth, Hg, Ek, Hk0. cbn [bind]. unfold index_from.
          destruct (Nat.leb_spec o (length data)); [|lia]. cbn [bind]. rewrite pick_nth, Hc, Hm. reflexivity. }
        destruct (tag_entry _ _ Hin) as (f' & Hf' & Ef' & _ & Est).
        assert (f' = g) as -> by (apply fixed_unique; [exact Hf'|eapply nth_error_In; exact Hg|congruence]).
        pose proof Hd2 as Hd3. apply laid_le in Hd3.
        apply hd_enum with (cases := cases) (k := k0) (c := c) (m := m); [exact Ek|congruence|exact Hc|lia|exact Hm| |exact Hnext].
        intros q' [rest ->]. rewrite <- app_assoc. cbn [app]. apply In_nth_error in Hy as [jy Hjy].
        pose proof (navigate_below pf t q l Hcalc data (v_path w) cs k0 rest c o w cases Hin y jy Hjy Ey Hv ltac:(lia) Ew Ek Hc) as Hb.
        cbn [marshaller_source src_prim src_tag src_len src_bytes].
        unfold get_primitive, get_case_tag, get_length, get_bytes. rewrite Hb. repeat split; reflexivity. }
  change (l_vars l) with (skipn 0 (l_vars l)). apply (G _ 0 _ eq_refl); [lia|exact Hla|reflexivity].
Qed.

Lemma held_find vs off off' w : held vs off off' -> In w vs -> exists o o' r, held (w :: r) o o'.
Proof.
  intros Hh. induction Hh as [| ? ? ? ? ? A1 A2 A3 A4 A5 A6 IHh | ? ? ? ? ? ? ? ? A1 A2 A3 A4 A5 A6 A7 IHh]; intros Hin; [destruct Hin| |];
    (destruct Hin as [->|Hin]; [|auto]).
  - eexists _, _, _. eapply hd_str; eassumption.
  - eexists _, _, _. eapply hd_enum; eassumption.
Qed.
End Level.

(** ** Values from answers *)

Definition sound_answers (src : source) (e : path * fk) : Prop :=
  match snd e with
  | KPrim p => forall z, src_prim src p (fst e) = Ret z -> in_range p z
  | KStr => forall k, src_len src (fst e) = Ret k -> (Z.of_nat k < 2 ^ 32)%Z
  | KTag cs => forall k l t v, src_tag src (fst e) = Ret k -> nth_error cs k = Some (l, t) ->
                               presents src t (fst e ++ [k]) v -> typed t v
  end.

Lemma presents_typed src t : forall q v, presents src t q v -> Forall (sound_answers src) (flat t q) -> typed t v.
Proof.
  assert (G : forall A (g : A -> ty) l,
    Forall (fun a => forall q v, presents src (g a) q v -> Forall (sound_answers src) (flat (g a) q) -> typed (g a) v) l ->
    forall q k vs, presents_list src (map g l) q k vs -> Forall (sound_answers src) (flat_members (fun a => flat (g a)) l q k) ->
    typed_list (map g l) vs).
  { intros A g l HF. induction HF as [|a l Ha Hl IH]; intros q k vs Hp Ht; cbn [flat_members map] in *.
    - inversion Hp; subst. constructor.
    - inversion Hp; subst. apply Forall_app in Ht as [T1 T2]. constructor; [eapply Ha; eassumption|eapply IH; eassumption]. }
  induction t using ty_ind'; intros q v Hp Ht; cbn [flat] in Ht.
  - inversion Hp; subst. constructor.
  - inversion Hp; subst. pose proof (Forall_inv Ht) as Hb. constructor. apply Hb. assumption.
  - inversion Hp; subst. pose proof (Forall_inv Ht) as Hb. constructor. apply Hb. assumption.
  - inversion Hp; subst. constructor. pose proof (G _ (fun t => t) _ H q 0 vs) as G'. rewrite map_id in G'. apply G'; assumption.
  - inversion Hp; subst. constructor. apply (G _ (fun f => snd f) _ H q 0 vs); assumption.
  - inversion Hp as [| | | | |? ? k l t v' Hk Hn Hv]; subst. pose proof (Forall_inv Ht) as Hb.
    econstructor; [exact Hn|]. eapply Hb; eassumption.
Qed.

Definition complete_answers (src : source) (e : path * fk) : Prop :=
  match snd e with
  | KPrim p => exists z, src_prim src p (fst e) = Ret z
  | KStr => exists bs, src_len src (fst e) = Ret (length bs) /\ src_bytes src (fst e) = Ret bs
  | KTag cs => exists k l t v, src_tag src (fst e) = Ret k /\ nth_error cs k = Some (l, t) /\ presents src t (fst e ++ [k]) v
  end.

Lemma presents_exists src t : forall q, Forall (complete_answers src) (flat t q) -> exists v, presents src t q v.
Proof.
  assert (G : forall A (g : A -> ty) l,
    Forall (fun a => forall q, Forall (complete_answers src) (flat (g a) q) -> exists v, presents src (g a) q v) l ->
    forall q k, Forall (complete_answers src) (flat_members (fun a => flat (g a)) l q k) ->
    exists vs, presents_list src (map g l) q k vs).
  { intros A g l HF. induction HF as [|a l Ha Hl IH]; intros q k Ht; cbn [flat_members map] in *.
    - exists []. constructor.
    - apply Forall_app in Ht as [H1 H2]. destruct (Ha _ H1) as [v Hv]. destruct (IH _ _ H2) as [vs Hvs]. exists (v :: vs). constructor; assumption. }
  induction t using ty_ind'; intros q Ht; cbn [flat] in Ht.
  - exists VUnit. constructor.
  - destruct (Forall_inv Ht) as [z Hz]. exists (VPrim z). constructor. exact Hz.
  - destruct (Forall_inv Ht) as (bs & K1 & K2). exists (VStr bs). constructor; assumption.
  - pose proof (G _ (fun t => t) _ H q 0) as G'. rewrite map_id in G'. destruct (G' Ht) as [vs Hvs]. exists (VTuple vs). constructor. exact Hvs.
  - destruct (G _ (fun f => snd f) _ H q 0 Ht) as [vs Hvs]. exists (VStruct vs). constructor. exact Hvs.
  - destruct (Forall_inv Ht) as (k & l & t & v & K1 & K2 & K3). exists (VCase k v). econstructor; eassumption.
Qed.

Lemma Forall_or {A} (P : A -> Prop) (R : Prop) l : (forall a, In a l -> P a \/ R) -> Forall P l \/ R.
Proof.
  induction l as [|a l IH]; intros H; [left; constructor|].
  destruct (H a (or_introl eq_refl)) as [Ha|Hr]; [|right; exact Hr].
  destruct IH as [Hl|Hr]; [intros b Hb; apply H; right; exact Hb| |right; exact Hr]. left. constructor; assumption.
Qed.

(** ** The statements *)

Lemma level_sound pf t q l : small t -> calculate_layout t q = Ret l -> marshallable pf l ->
  Forall (sound_field pf (l_var_off l)) (l_fixed l).
Proof.
  intros Hs Hc Hm. pose proof (calculate_layout_ok _ _ _ Hc) as Hl. pose proof (calculate_layout_narrow _ _ _ Hs Hc) as Hnar.
  assert (Hst : Forall (storable pf) (l_fixed l)) by (inversion Hm; assumption).
  pose proof (lo_place _ _ Hl) as Hp. rewrite Forall_forall in *. intros f Hf. split; [apply Hp; exact Hf|].
  split; [apply Hst; exact Hf|apply Hnar; exact Hf].
Qed.

Lemma canon pf t : forall q l data n v,
  small t -> calculate_layout t q = Ret l -> marshallable pf l -> encoding_size pf l data = Ret n -> n <= length data ->
  presents (marshaller_source pf l data) t q v ->
  typed t v /\ forall src, presents src t q v ->
    encoding_size_with_source src l = Ret n /\ encode_with_source pf src l data = Ret (data, n).
Proof.
  induction t as [t IH] using ty_payload_ind. intros q l data n v Hsmall Hcalc Hmar Henc Hn Hp.
  pose proof (calculate_layout_ok _ _ _ Hcalc) as Hl.
  pose proof (level_sound _ _ _ _ Hsmall Hcalc Hmar) as Hsound.
  destruct (level_held pf t q l data n Hcalc Henc Hn) as (off & Hheld & Hal & Hoff).
  set (M := marshaller_source pf l data) in *.
  assert (Hcase : forall w o o' r cs cases k c m l' t' v', In w (l_vars l) ->
    held pf l data (w :: r) o o' -> In (v_path w, KTag cs) (flat t q) -> v_kind w = VEnum cases ->
    src_tag M (v_path w) = Ret k -> nth_error cases k = Some c -> encoding_size pf c (skipn o data) = Ret m -> o + m <= length data ->
    same_below (marshaller_source pf c (skipn o data)) M (v_path w ++ [k]) ->
    nth_error cs k = Some (l', t') -> presents M t' (v_path w ++ [k]) v' ->
    typed t' v' /\ forall src, presents src t' (v_path w ++ [k]) v' ->
      encoding_size_with_source src c = Ret m /\ encode_with_source pf src c (skipn o data) = Ret (skipn o data, m)).
  { intros w o o' r cs cases k c m l' t' v' Hw _ Hin Hk Ht Hc Hm Hle Hsb Hcs Hpv.
    assert (Hcc : calculate_layout t' (v_path w ++ [k]) = Ret c).
    { destruct (var_flat t q l Hcalc w Hw) as (kd & Hin2 & _ & [_ Hr]). cbn [fst snd] in Hr.
      rewrite <- (flat_entry_unique _ _ _ _ _ Hin Hin2) in Hr. destruct Hr as (ls & Hk2 & _ & Hls).
      destruct (members_nth_l _ _ _ _ _ _ _ Hls Hcs) as (c2 & Hc2 & Hcc). cbn [snd Nat.add] in Hcc. congruence. }
    apply (IH q (v_path w) cs (l', t') Hin (nth_error_In _ _ Hcs) (v_path w ++ [k]) c (skipn o data) m v').
    - apply (flat_tag_small _ _ _ _ (l', t') Hsmall Hin). eapply nth_error_In. exact Hcs.
    - exact Hcc.
    - eapply everywhere_case; [exact Hmar|exact Hw|exact Hk|eapply nth_error_In; exact Hc].
    - exact Hm.
    - rewrite skipn_length. lia.
    - eapply presents_ext; [exact Hpv|]. apply same_below_sym. exact Hsb. }
  assert (Hty : typed t v).
  { apply (presents_typed M t q v Hp). rewrite Forall_forall. intros [e kd] Hin. unfold sound_answers. cbn [fst snd].
    destruct kd as [p| |cs].
    - intros z Hz. destruct (prim_entry pf t q l data Hcalc e p Hin) as (f & Hf & Ef & Ek & Es). unfold M in Hz. rewrite Es in Hz.
      rewrite Forall_forall in Hsound. destruct (Hsound _ Hf) as ((P1 & _ & _) & _). unfold field_size in P1. rewrite Ek in P1.
      unfold read_prim in Hz. rewrite raw_read_ok in Hz by lia. cbn [bind] in Hz. apply decode_prim_inv in Hz; [tauto|apply slice_length; lia].
    - intros k Hk. destruct (str_entry pf t q l data Hcalc e Hin) as (x & f & Hx & Ex & Hf & Ef & Ek & Es & _). unfold M in Hk. rewrite Es in Hk.
      rewrite Forall_forall in Hsound. destruct (Hsound _ Hf) as ((P1 & _ & _) & _). unfold field_size in P1. rewrite Ek in P1.
      unfold read_length in Hk. rewrite raw_read_ok in Hk by lia. cbn [bind] in Hk. injection Hk as <-.
      pose proof (slice_le_range data (f_offset f) 4 ltac:(lia)) as R. change (8 * Z.of_nat 4)%Z with 32%Z in R. lia.
    - intros k l' t' v' Ht Hcs Hpv.
      destruct (index_entry t q l Hcalc e _ Hin) as (j & x & f & Hj & Ex & _).
      destruct (var_entry t q l Hcalc e (KTag cs) x Hin eq_refl (nth_error_In _ _ Hj) Ex) as (w & Hw & [Ep Hwk]). cbn [fst snd] in Ep, Hwk.
      apply nth_error_In in Hw. destruct (held_find _ _ _ _ _ _ _ Hheld Hw) as (o & o' & r & Hh). destruct Hwk as (ls & Hwk & _). subst e.
      inversion Hh as [|? ? ? ? k0 Ek|? ? ? ? cases k0 c m Ek B1 B2 B3 B4 B5 B6]; subst; [congruence|].
      assert (k0 = k) as -> by (fold M in B1; congruence). rewrite <- Ep in *.
      apply (Hcase w o o' r cs cases k c m l' t' v'); assumption. }
  split; [exact Hty|]. intros src Hsrc.
  pose proof (presents_both _ _ _ _ _ Hp Hsrc) as Hsame. rewrite Forall_forall in Hsame.
  assert (Hfx : Forall (fun f => exists z, rd pf f data = Ret z /\ ans src f = Ret z) (l_fixed l)).
  { pose proof (presents_flat _ _ _ _ Hp Hty) as Hans. pose proof (lo_kinds _ _ Hl) as Hk. rewrite Forall_forall in *.
    intros f Hf. destruct (Hk _ Hf) as (kd & Hin & Hr). pose proof (Hans _ Hin) as Ha. pose proof (Hsame _ Hin) as Hs.
    unfold answers in Ha. unfold same_answers in Hs. cbn [fst snd] in Ha, Hs. unfold rd, ans.
    destruct kd as [p| |cs], (f_kind f) as [p'| |i p'|p' o n'] eqn:Ekf; cbn [kind_rel] in Hr; try (destruct Hr; fail).
    - subst p'. destruct Ha as (z & H1 & _). exists z. destruct (prim_entry pf t q l data Hcalc _ p Hin) as (g & Hg & Eg & Ekg & Es).
      assert (g = f) as -> by (apply (fixed_unique t q l Hcalc); assumption). unfold M in *. split; [congruence|congruence].
    - destruct Ha as (bs & H1 & _). destruct Hs as [Hs _]. exists (Z.of_nat (length bs)).
      destruct (str_entry pf t q l data Hcalc _ Hin) as (x & g & Hx & Ex & Hg & Eg & Ekg & Es & _).
      assert (g = f) as -> by (apply (fixed_unique t q l Hcalc); assumption). unfold M in *. rewrite <- Es, H1, Hs, H1. split; reflexivity.
    - destruct Ha as (k & l' & t' & v' & H1 & _). destruct Hs as (k2 & _ & _ & _ & S1 & S2 & _). exists (Z.of_nat k).
      destruct (tag_entry pf t q l data Hcalc _ cs Hin) as (g & Hg & Eg & _ & Es).
      assert (g = f) as -> by (apply (fixed_unique t q l Hcalc); assumption). unfold M in *.
      assert (k2 = k) as -> by congruence. rewrite <- Es, H1, S2. split; reflexivity. }
  assert (Hv : forall vs o, (forall w, In w vs -> In w (l_vars l)) -> held pf l data vs o off ->
    size_loop src (encoding_size_with_source src) vs o = Ret off /\
    encode_vars src (encode_with_source pf src) vs data o = Ret (data, off)).
  { intros vs o Hsub Hh. remember off as off' eqn:Eo in Hh |- *. clear Eo.
    induction Hh as [o|w vs o o' k Ek B1 B2 B3 B4 B5 IHh|w vs o o' cases k c m Ek B1 B2 B3 B4 B5 B6 IHh]; cbn [size_loop encode_vars].
    - split; reflexivity.
    - destruct IHh as [I1 I2]; [intros; apply Hsub; right; assumption|]. rewrite Ek.
      destruct (var_flat t q l Hcalc w (Hsub w (or_introl eq_refl))) as (kd & Hin & _ & [_ Hr]). cbn [fst snd] in Hr.
      destruct kd as [p| |cs]; [destruct Hr| |destruct Hr as (ls & Hr & _); congruence].
      pose proof (Hsame _ Hin) as Hs. unfold same_answers in Hs. cbn [fst snd] in Hs. destruct Hs as [S1 S2].
      rewrite S1, S2. unfold M. rewrite B1, B2. cbn [bind]. split; [exact I1|].
      destruct (Nat.leb_spec o (length data)); [|lia]. cbn [bind]. rewrite slice_length by lia. rewrite Nat.eqb_refl. cbn [bind].
      rewrite raw_write_ok by (rewrite slice_length; lia). rewrite write_same by lia. cbn [bind]. exact I2.
    - destruct IHh as [I1 I2]; [intros; apply Hsub; right; assumption|]. rewrite Ek.
      destruct (var_flat t q l Hcalc w (Hsub w (or_introl eq_refl))) as (kd & Hin & _ & [_ Hr]). cbn [fst snd] in Hr.
      destruct kd as [p| |cs]; [destruct Hr|congruence|].
      pose proof (Hsame _ Hin) as Hs. unfold same_answers in Hs. cbn [fst snd] in Hs.
      destruct Hs as (k2 & l' & t' & v' & S1 & S2 & S3 & S4 & S5). assert (k2 = k) as -> by (unfold M in S1; congruence).
      destruct (Hcase w o o' vs cs cases k c m l' t' v' (Hsub w (or_introl eq_refl)) ltac:(eapply hd_enum; eassumption) Hin Ek B1 B2 B4 B3 B5 S3 S4)
        as [_ He]. destruct (He src S5) as [E1 E2].
      rewrite S2. cbn [bind]. split; [rewrite pick_nth, B2, E1; exact I1|].
      unfold index_from. destruct (Nat.leb_spec o (length data)); [|lia]. cbn [bind]. rewrite !pick_nth, B2, E2. cbn [bind].
      rewrite E1. cbn [bind].
      rewrite firstn_skipn. exact I2. }
  destruct (Hv (l_vars l) (l_var_off l) (fun _ H => H) Hheld) as [V1 V2].
  clear - V1 V2 Hfx Hsound Hal Hoff Hn. destruct l as [al vo ix fx vs]. cbn [l_vars l_var_off l_fixed l_align] in *. split.
  - cbn [encoding_size_with_source]. rewrite V1. cbn [bind]. exact Hal.
  - cbn [encode_with_source]. destruct (Nat.leb_spec vo (length data)); [|lia]. cbn [bind].
    rewrite (encode_fixed_back_all pf src vo data fx Hsound ltac:(lia) Hfx). cbn [bind]. rewrite V2. cbn [bind]. rewrite Hal. reflexivity.
Qed.

Lemma flat_uses t : forall q e p, In (e, KPrim p) (flat t q) -> uses p t.
Proof.
  induction t using ty_ind'; intros q e p' Hin; cbn [flat] in Hin.
  - destruct Hin.
  - destruct Hin as [E|[]]. injection E as <- <-. constructor.
  - destruct Hin as [E|[]]. discriminate.
  - apply (flat_members_In (fun t => t)) in Hin as (t & q' & Ht & Hin). rewrite Forall_forall in H. econstructor; eauto.
  - apply (flat_members_In (fun f : str * ty => snd f)) in Hin as (t & q' & Ht & Hin). rewrite Forall_forall in H. econstructor; eauto.
  - destruct Hin as [E|[]]. discriminate.
Qed.

Lemma flat_uses_case t : forall q e cs c p, In (e, KTag cs) (flat t q) -> In c cs -> uses p (snd c) -> uses p t.
Proof.
  induction t using ty_ind'; intros q e cs' c' p' Hin Hc Hu; cbn [flat] in Hin.
  - destruct Hin.
  - destruct Hin as [E|[]]. discriminate.
  - destruct Hin as [E|[]]. discriminate.
  - apply (flat_members_In (fun t => t)) in Hin as (t & q' & Ht & Hin). rewrite Forall_forall in H. econstructor; eauto.
  - apply (flat_members_In (fun f : str * ty => snd f)) in Hin as (t & q' & Ht & Hin). rewrite Forall_forall in H. econstructor; eauto.
  - destruct Hin as [E|[]]. injection E as <- <-. econstructor; eauto.
Qed.

Lemma decode_prim_total p bs : (exists z, decode_prim p bs = Ret z) \/ (picky p /\ decode_prim p bs = Undef).
Proof.
  unfold decode_prim, picky. destruct p; cbn [is_signed andb];
    try (destruct (_ <=? _)%Z); try (destruct (is_char _)); eauto.
Qed.

Lemma readable pf t : forall q l data n,
  small t -> calculate_layout t q = Ret l -> marshallable pf l -> encoding_size pf l data = Ret n -> n <= length data ->
  (exists v, presents (marshaller_source pf l data) t q v) \/
  (exists p e, picky p /\ uses p t /\ get_primitive pf l data p e = Undef /\ extends q e).
Proof.
  induction t as [t IH] using ty_payload_ind. intros q l data n Hsmall Hcalc Hmar Henc Hn.
  pose proof (calculate_layout_ok _ _ _ Hcalc) as Hl.
  pose proof (level_sound _ _ _ _ Hsmall Hcalc Hmar) as Hsound.
  destruct (level_held pf t q l data n Hcalc Henc Hn) as (off & Hheld & Hal & Hoff).
  set (M := marshaller_source pf l data) in *.
  assert (D : Forall (complete_answers M) (flat t q) \/ (exists p e, picky p /\ uses p t /\ get_primitive pf l data p e = Undef /\ extends q e)).
  { apply Forall_or. intros [e kd] Hin. unfold complete_answers. cbn [fst snd]. destruct kd as [p| |cs].
    - destruct (prim_entry pf t q l data Hcalc e p Hin) as (f & Hf & Ef & Ek & Es).
      rewrite Forall_forall in Hsound. destruct (Hsound _ Hf) as ((P1 & _ & _) & _). unfold field_size in P1. rewrite Ek in P1.
      unfold read_prim in Es. rewrite raw_read_ok in Es by lia. cbn [bind] in Es.
      destruct (decode_prim_total p (slice data (f_offset f) (prim_size p))) as [[z Hz]|[Hp Hu]].
      + left. exists z. unfold M. congruence.
      + right. exists p, e. split; [exact Hp|]. split; [eapply flat_uses; exact Hin|]. cbn [marshaller_source src_prim] in Es.
        split; [congruence|]. apply flat_extends in Hin. exact Hin.
    - left. destruct (index_entry t q l Hcalc e _ Hin) as (j & x & f & Hj & Ex & _).
      destruct (var_entry t q l Hcalc e KStr x Hin eq_refl (nth_error_In _ _ Hj) Ex) as (w & Hw & [Ep Hwk]). cbn [fst snd] in Ep, Hwk.
      apply nth_error_In in Hw. destruct (held_find _ _ _ _ _ _ _ Hheld Hw) as (o & o' & r & Hh). subst e.
      inversion Hh as [|? ? ? ? k0 Ek B1 B2 B3 B4 B5|? ? ? ? cases k0 c m Ek B1 B2 B3 B4 B5 B6]; subst; [|congruence].
      rewrite Ep in B1, B2. exists (slice data o k0). rewrite slice_length by lia. unfold M. auto.
    - destruct (index_entry t q l Hcalc e _ Hin) as (j & x & f & Hj & Ex & _).
      destruct (var_entry t q l Hcalc e (KTag cs) x Hin eq_refl (nth_error_In _ _ Hj) Ex) as (w & Hw & [Ep Hwk]). cbn [fst snd] in Ep, Hwk.
      apply nth_error_In in Hw. destruct (held_find _ _ _ _ _ _ _ Hheld Hw) as (o & o' & r & Hh). destruct Hwk as (ls & Hwk & _ & Hls). subst e.
      inversion Hh as [|? ? ? ? k0 Ek|? ? ? ? cases k c m Ek B1 B2 B3 B4 B5 B6]; subst; [congruence|].
      assert (ls = cases) as -> by congruence. rewrite <- Ep in *.
      destruct (members_nth _ _ _ _ _ _ _ Hls B2) as ([l' t'] & Hcs & Hcc). cbn [snd Nat.add] in Hcc.
      destruct (IH q (v_path w) cs (l', t') Hin (nth_error_In _ _ Hcs) (v_path w ++ [k]) c (skipn o data) m) as [[v Hv]|(p & e & U1 & U2 & U3 & U4)].
      + apply (flat_tag_small _ _ _ _ (l', t') Hsmall Hin). eapply nth_error_In. exact Hcs.
      + exact Hcc.
      + eapply everywhere_case; [exact Hmar|exact Hw|exact Ek|eapply nth_error_In; exact B2].
      + exact B4.
      + rewrite skipn_length. lia.
      + left. exists k, l', t', v. cbn [snd] in Hv. split; [exact B1|]. split; [exact Hcs|]. eapply presents_ext; [exact Hv|exact B5].
      + right. exists p, e. split; [exact U1|]. cbn [snd] in U2.
        split; [eapply (flat_uses_case t q _ cs (l', t')); [exact Hin|eapply nth_error_In; exact Hcs|exact U2]|].
        destruct (B5 e U4) as (B5' & _). specialize (B5' p). cbn [marshaller_source src_prim] in B5'.
        split; [rewrite B5'; exact U3|]. eapply extends_trans; [|exact U4]. eapply extends_trans; [|apply extends_snoc].
        apply flat_extends in Hin. exact Hin. }
  destruct D as [D|D]; [left|right; exact D]. apply presents_exists. exact D.
Qed.

Lemma readable_encoded pf t l data n v :
  small t -> layout_new t = Ret l -> marshallable pf l ->
  (whole_record pf l data n /\ presents (marshaller_source pf l data) t [] v <->
   typed t v /\ exists src buf, presents src t [] v /\ encoding_size_with_source src l = Ret n /\ n <= length buf /\
     encode_with_source pf src l buf = Ret (data, n)).
Proof.
  intros Hs Hl Hm. split.
  - intros [[He Hn] Hp]. destruct (canon pf t [] l data n v Hs Hl Hm He Hn Hp) as [Ht Hc]. split; [exact Ht|].
    exists (marshaller_source pf l data), data. destruct (Hc _ Hp) as [E1 E2]. auto.
  - intros (Ht & src & buf & Hp & Hsz & Hb & E). pose proof (encode_length _ _ _ _ _ _ E) as L.
    destruct (round_trip pf src t l v n buf Hs Hl Hm Hp Ht Hsz Hb) as (b' & E' & R).
    destruct (size_and_frame pf src t l v n buf Hs Hl Hm Hp Ht Hsz Hb) as (_ & b2 & E2 & _ & _ & R2).
    assert (b' = data) as -> by congruence. assert (b2 = data) as -> by congruence.
    split; [split; [apply R2; [lia|reflexivity]|lia]|]. apply R; [lia|reflexivity].
Qed.

Lemma size_checks pf t l data n :
  small t -> layout_new t = Ret l -> marshallable pf l -> whole_record pf l data n ->
  (exists v, presents (marshaller_source pf l data) t [] v) \/
  (exists p q, picky p /\ uses p t /\ get_primitive pf l data p q = Undef).
Proof.
  intros Hs Hl Hm [He Hn]. destruct (readable pf t [] l data n Hs Hl Hm He Hn) as [H|(p & e & H1 & H2 & H3 & _)]; [left; exact H|].
  right. eauto.
Qed.

Lemma presents_fun src t : forall q v v', presents src t q v -> presents src t q v' -> v = v'.
Proof.
  assert (G : forall A (g : A -> ty) l,
    Forall (fun a => forall q v v', presents src (g a) q v -> presents src (g a) q v' -> v = v') l ->
    forall q k vs vs', presents_list src (map g l) q k vs -> presents_list src (map g l) q k vs' -> vs = vs').
  { intros A g l HF. induction HF as [|a l Ha Hl IH]; intros q k vs vs' Hp Hp'; cbn [map] in *.
    - inversion Hp; subst. inversion Hp'; subst. reflexivity.
    - inversion Hp; subst. inversion Hp'; subst. f_equal; [eapply Ha; eassumption|eapply IH; eassumption]. }
  induction t using ty_ind'; intros q v v' Hp Hp'.
  - inversion Hp; subst. inversion Hp'; subst. reflexivity.
  - inversion Hp; subst. inversion Hp'; subst. congruence.
  - inversion Hp; subst. inversion Hp'; subst. congruence.
  - inversion Hp; subst. inversion Hp'; subst. f_equal. pose proof (G _ (fun t => t) _ H q 0) as G'. rewrite map_id in G'. apply G'; assumption.
  - inversion Hp; subst. inversion Hp'; subst. f_equal. apply (G _ (fun f => snd f) _ H q 0); assumption.
  - inversion Hp as [| | | | |? ? k l t v1 Hk Hn Hv]; subst. inversion Hp' as [| | | | |? ? k' l' t' v1' Hk' Hn' Hv']; subst.
    assert (k' = k) as -> by congruence. rewrite Hn in Hn'. injection Hn' as <- <-. f_equal.
    rewrite Forall_forall in H. apply (H _ (nth_error_In _ _ Hn) (q ++ [k])); assumption.
Qed.

Lemma size_checks_plain pf t l data n :
  small t -> layout_new t = Ret l -> marshallable pf l -> ~ uses PBool t -> ~ uses PChar t -> whole_record pf l data n ->
  exists v, presents (marshaller_source pf l data) t [] v /\ typed t v /\
    (forall v', presents (marshaller_source pf l data) t [] v' -> v' = v) /\
    (forall src, presents src t [] v -> encode_with_source pf src l data = Ret (data, n)).
Proof.
  intros Hs Hl Hm Hb Hc Hw. destruct (size_checks pf t l data n Hs Hl Hm Hw) as [[v Hv]|(p & q & [->| ->] & Hu & _)]; [|contradiction..].
  destruct Hw as [He Hn]. destruct (canon pf t [] l data n v Hs Hl Hm He Hn Hv) as [Ht Hcn].
  exists v. split; [exact Hv|]. split; [exact Ht|]. split.
  - intros v' Hv'. eapply presents_fun; eassumption.
  - intros src Hsrc. apply Hcn. exact Hsrc.
Qed.
