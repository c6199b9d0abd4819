(** * Slotted pages refine lists of rows *)

From Coq Require Import ZifyBool ZifyNat ZifyN.
From Verif Require Import BaseFacts UtilModel UtilSpec UtilProofs NsmModel NsmSpec.
Ltac Zify.zify_post_hook ::= Z.div_mod_to_equations.

Definition base (a L : nat) (rows : list (list byte)) (i : nat) : nat := L - stored a (firstn i rows).
Definition pad (a : nat) (r : list byte) : nat := align_up (length r) a - length r.

Record Rep (a : nat) (pg : page) (rows : list (list byte)) : Prop := {
  rep_pow2 : is_pow2 (Z.of_nat a) = true;
  rep_div : Nat.divide a (length pg);
  rep_min : 4 <= length pg;
  rep_max : (Z.of_nat (length pg) < 2 ^ 32)%Z;
  rep_space : 4 * (length rows + 1) + stored a rows <= length pg;
  rep_count : get_u32 pg 0 = Ret (Z.of_nat (length rows));
  rep_slot : forall i r, nth_error rows i = Some r ->
    get_u32 pg (4 * (i + 1)) = Ret (Z.of_nat (base a (length pg) rows (S i) + pad a r));
  rep_data : forall i r, nth_error rows i = Some r ->
    slice pg (base a (length pg) rows (S i)) (length r) = r
}.

(** ** Row sizes *)

Lemma pow2_pos a : is_pow2 (Z.of_nat a) = true -> 0 < a.
Proof. unfold is_pow2. lia. Qed.

Lemma stored_cons a r rows : stored a (r :: rows) = align_up (length r) a + stored a rows.
Proof. reflexivity. Qed.

Lemma stored_app a r1 r2 : stored a (r1 ++ r2) = stored a r1 + stored a r2.
Proof. unfold stored. rewrite map_app, list_sum_app. reflexivity. Qed.

Lemma stored_split a rows i : stored a rows = stored a (firstn i rows) + stored a (skipn i rows).
Proof. rewrite <- stored_app, firstn_skipn. reflexivity. Qed.

Lemma firstn_S_nth {A} (l : list A) i r :
  nth_error l i = Some r -> firstn (S i) l = firstn i l ++ [r].
Proof.
  revert i. induction l as [|x l IH]; intros [|i] H; simpl in *; try discriminate.
  - injection H as ->. reflexivity.
  - f_equal. apply IH. exact H.
Qed.

Lemma stored_firstn_S a rows i r :
  nth_error rows i = Some r ->
  stored a (firstn (S i) rows) = stored a (firstn i rows) + align_up (length r) a.
Proof.
  intros H. rewrite (firstn_S_nth _ _ _ H), stored_app, stored_cons. unfold stored. simpl. lia.
Qed.

Lemma stored_firstn_le a rows i j : i <= j -> stored a (firstn i rows) <= stored a (firstn j rows).
Proof.
  intros H. replace (firstn i rows) with (firstn i (firstn j rows)).
  - rewrite (stored_split a (firstn j rows) i). lia.
  - rewrite firstn_firstn. f_equal. lia.
Qed.

Lemma stored_firstn_total a rows i : stored a (firstn i rows) <= stored a rows.
Proof. rewrite (stored_split a rows i). lia. Qed.

Lemma stored_divide a rows : Nat.divide a (stored a rows).
Proof.
  induction rows as [|r rows IH]; [exists 0; reflexivity|].
  rewrite stored_cons. apply Nat.divide_add_r; [apply align_up_div|exact IH].
Qed.

Lemma divide_sub a x y : Nat.divide a x -> Nat.divide a y -> Nat.divide a (x - y).
Proof. intros. apply Nat.divide_sub_r; assumption. Qed.

Lemma base_divide a L rows i : Nat.divide a L -> Nat.divide a (base a L rows i).
Proof. intros H. apply divide_sub; [exact H|apply stored_divide]. Qed.

Lemma base_0 a L rows : base a L rows 0 = L.
Proof. unfold base, stored. simpl. lia. Qed.

Lemma base_all a L rows : base a L rows (length rows) = L - stored a rows.
Proof. unfold base. rewrite firstn_all. reflexivity. Qed.

Lemma base_mono a L rows i j : i <= j -> base a L rows j <= base a L rows i.
Proof. intros H. unfold base. pose proof (stored_firstn_le a rows i j H). lia. Qed.

Lemma base_S a L rows i r :
  nth_error rows i = Some r -> stored a rows <= L ->
  base a L rows (S i) + align_up (length r) a = base a L rows i.
Proof.
  intros H HL. unfold base. rewrite (stored_firstn_S _ _ _ _ H).
  pose proof (stored_firstn_total a rows (S i)) as H1. rewrite (stored_firstn_S _ _ _ _ H) in H1. lia.
Qed.

Lemma pad_lt a r : 0 < a -> pad a r < a.
Proof. intros H. unfold pad. pose proof (align_up_lt (length r) a H). pose proof (align_up_ge (length r) a H). lia. Qed.

Lemma pad_eq a r : 0 < a -> length r + pad a r = align_up (length r) a.
Proof. intros H. unfold pad. pose proof (align_up_ge (length r) a H). lia. Qed.

(** ** Slot words *)

Lemma mask_value a : is_pow2 (Z.of_nat a) = true -> (Z.of_nat a <= 2 ^ 32)%Z ->
  alignment_mask a = Ret (unot 32 (Z.of_nat a - 1)).
Proof.
  intros Ha Hm. pose proof (pow2_pos a Ha). unfold alignment_mask, usub.
  replace (1 <=? a) with true by lia. cbn [bind]. f_equal. unfold unot, umax.
  rewrite Nat2Z.inj_sub by lia. change (Z.of_nat 1) with 1%Z. change (2 ^ 64)%Z with (2 ^ 32 * 2 ^ 32)%Z.
  replace (2 ^ 32 * 2 ^ 32 - 1 - (Z.of_nat a - 1))%Z
    with ((2 ^ 32 - Z.of_nat a) + (2 ^ 32 - 1) * 2 ^ 32)%Z by lia.
  rewrite Z.mod_add by lia. rewrite Z.mod_small by lia. lia.
Qed.

Lemma slot_split a o d :
  is_pow2 (Z.of_nat a) = true -> (Z.of_nat a <= 2 ^ 32)%Z -> Nat.divide a o -> d < a ->
  (Z.of_nat (o + d) < 2 ^ 32)%Z ->
  Z.land (Z.of_nat (o + d)) (unot 32 (Z.of_nat a - 1)) = Z.of_nat o /\
  Z.land (Z.of_nat (o + d)) (unot 32 (unot 32 (Z.of_nat a - 1))) = Z.of_nat d.
Proof.
  intros Ha Hm [q Hq] Hd Hb. pose proof (pow2_pos a Ha) as Hpos.
  apply is_pow2_true in Ha as (k & Hk & E).
  assert (Hmod : (Z.of_nat (o + d) mod 2 ^ k = Z.of_nat d)%Z).
  { rewrite <- E. subst o. rewrite Nat2Z.inj_add, Nat2Z.inj_mul, Z.add_comm, Z.mod_add by lia.
    apply Z.mod_small. lia. }
  assert (Hk32 : (k <= 32)%Z) by (apply (Z.pow_le_mono_r_iff 2); lia).
  split.
  - rewrite E, land_high_mask, Hmod by lia. lia.
  - unfold unot at 1. replace (umax 32 - unot 32 (Z.of_nat a - 1))%Z with (2 ^ k - 1)%Z by (unfold unot; lia).
    rewrite land_low_mask by lia. exact Hmod.
Qed.

Lemma get_u32_write_same pg o v :
  o + 4 <= length pg -> (0 <= v < 2 ^ 32)%Z -> get_u32 (write pg o (le_bytes 4 v)) o = Ret v.
Proof.
  intros Ho Hv. apply (get_set_u32 pg o v); [exact Hv|]. unfold set_u32.
  replace (o + 4 <=? length pg) with true by lia. reflexivity.
Qed.

Lemma get_u32_slice pg pg' o :
  length pg' = length pg -> slice pg' o 4 = slice pg o 4 -> get_u32 pg' o = get_u32 pg o.
Proof. intros H1 H2. unfold get_u32. rewrite H1, H2. reflexivity. Qed.

Lemma set_u32_ok pg o v :
  o + 4 <= length pg -> set_u32 pg o v = Ret (write pg o (le_bytes 4 v)).
Proof. intros H. unfold set_u32. replace (o + 4 <=? length pg) with true by lia. reflexivity. Qed.

(** A word store changes one aligned word only. *)
Lemma word_write_length pg o v : o + 4 <= length pg -> length (write pg o (le_bytes 4 v)) = length pg.
Proof. intros H. apply write_length. rewrite le_bytes_length. exact H. Qed.

Lemma word_write_other pg o v o' n :
  o + 4 <= length pg -> (o' + n <= o \/ o + 4 <= o') ->
  slice (write pg o (le_bytes 4 v)) o' n = slice pg o' n.
Proof. intros H1 H2. apply slice_write_other; rewrite le_bytes_length; assumption. Qed.

(** ** Reading a represented page *)

Section Reading.
Context {a : nat} {pg : page} {rows : list (list byte)} (R : Rep a pg rows).
Let L := length pg.

Lemma rep_pos : 0 < a. Proof. apply pow2_pos, (rep_pow2 _ _ _ R). Qed.

Lemma rep_a_le : a <= L.
Proof.
  pose proof (rep_min _ _ _ R). apply Nat.divide_pos_le; [unfold L; lia|apply (rep_div _ _ _ R)].
Qed.

Lemma rep_a32 : (Z.of_nat a <= 2 ^ 32)%Z.
Proof. pose proof rep_a_le. pose proof (rep_max _ _ _ R). unfold L in *. lia. Qed.

Lemma rep_stored : stored a rows <= L.
Proof. pose proof (rep_space _ _ _ R). unfold L. lia. Qed.

Lemma rep_num_rows : num_rows pg = Ret (length rows).
Proof. unfold num_rows. rewrite (rep_count _ _ _ R). cbn [bind]. rewrite Nat2Z.id. reflexivity. Qed.

Lemma rep_base_pad i r : nth_error rows i = Some r ->
  base a L rows (S i) + pad a r < L + 1 /\
  base a L rows (S i) + length r + pad a r = base a L rows i.
Proof.
  intros H. pose proof (base_S a L rows i r H rep_stored). pose proof (pad_eq a r rep_pos).
  assert (base a L rows i <= L) by (unfold base; lia). lia.
Qed.

Lemma rep_row_offset_padding i r : nth_error rows i = Some r ->
  row_offset_padding a pg i = Ret (base a L rows (S i), pad a r).
Proof.
  intros H. unfold row_offset_padding. rewrite rep_num_rows. cbn [bind].
  assert (i < length rows) by (apply nth_error_Some; congruence).
  replace (i <? length rows) with true by lia.
  unfold get_row_offset. rewrite (rep_slot _ _ _ R i r H). cbn [bind].
  rewrite mask_value by (apply (rep_pow2 _ _ _ R) || apply rep_a32). cbn [bind].
  pose proof (rep_base_pad i r H). pose proof (rep_max _ _ _ R).
  destruct (slot_split a (base a L rows (S i)) (pad a r)) as [E1 E2].
  - apply (rep_pow2 _ _ _ R).
  - apply rep_a32.
  - apply base_divide, (rep_div _ _ _ R).
  - apply pad_lt, rep_pos.
  - unfold L in *. lia.
  - unfold L in *. rewrite E1, E2, !Nat2Z.id. reflexivity.
Qed.

Lemma rep_aligned i : i < length rows -> aligned_row_offset a pg i = Ret (base a L rows (S i)).
Proof.
  intros H. destruct (nth_error rows i) as [r|] eqn:E.
  2:{ apply nth_error_None in E. lia. }
  pose proof (rep_row_offset_padding i r E) as H1.
  unfold row_offset_padding in H1. unfold aligned_row_offset.
  destruct (num_rows pg) as [n| |]; try discriminate. cbn [bind] in *.
  destruct (i <? n); try discriminate.
  destruct (get_row_offset pg i) as [v| |]; try discriminate. cbn [bind] in *.
  destruct (alignment_mask a) as [m| |]; try discriminate. cbn [bind] in *.
  congruence.
Qed.

Lemma rep_aligned_panic i : length rows <= i -> aligned_row_offset a pg i = Panic.
Proof.
  intros H. unfold aligned_row_offset. rewrite rep_num_rows. cbn [bind].
  replace (i <? length rows) with false by lia. reflexivity.
Qed.

Lemma rep_upper i : i <= length rows ->
  (if 0 <? i then aligned_row_offset a pg (i - 1) else Ret (length pg)) = Ret (base a L rows i).
Proof.
  intros H. destruct i as [|i]; cbn [Nat.ltb Nat.leb].
  - rewrite base_0. reflexivity.
  - replace (S i - 1) with i by lia. apply rep_aligned. lia.
Qed.

Lemma rep_get_row i r : nth_error rows i = Some r -> get_row a pg i = Ret r.
Proof.
  intros H. assert (i < length rows) by (apply nth_error_Some; congruence).
  unfold get_row. rewrite (rep_row_offset_padding i r H). cbn [bind].
  rewrite rep_upper by lia. cbn [bind].
  pose proof (rep_base_pad i r H) as [H1 H2].
  unfold usub. replace (pad a r <=? base a L rows i) with true by lia. cbn [bind].
  assert (base a L rows i <= L) by (unfold base; lia).
  unfold index_range.
  replace (base a L rows (S i) <=? base a L rows i - pad a r) with true by lia.
  replace (base a L rows i - pad a r <=? length pg) with true by (unfold L in *; lia).
  cbn [andb]. f_equal.
  replace (base a L rows i - pad a r - base a L rows (S i)) with (length r) by lia.
  apply (rep_data _ _ _ R i r H).
Qed.

Lemma rep_get_row_panic i : length rows <= i -> get_row a pg i = Panic.
Proof.
  intros H. unfold get_row, row_offset_padding. rewrite rep_num_rows. cbn [bind].
  replace (i <? length rows) with false by lia. reflexivity.
Qed.

Lemma rep_shows : shows a pg rows.
Proof.
  split; [apply rep_num_rows|]. intros i. destruct (nth_error rows i) as [r|] eqn:E.
  - apply rep_get_row. exact E.
  - apply rep_get_row_panic. apply nth_error_None. exact E.
Qed.

Lemma rep_align v : v <= L + 4 -> align_nat v a = Ret (align_up v a).
Proof.
  intros H. apply align_nat_value; [apply (rep_pow2 _ _ _ R)|].
  pose proof rep_a_le. pose proof (rep_max _ _ _ R). unfold L in *. lia.
Qed.

Lemma rep_max_insert : max_insert_row_size a pg = Ret (capacity L a rows).
Proof.
  unfold max_insert_row_size. rewrite rep_num_rows. cbn [bind].
  rewrite rep_align by (pose proof (rep_space _ _ _ R); unfold L; lia). cbn [bind].
  rewrite rep_upper by lia. cbn [bind]. rewrite base_all. unfold capacity.
  destruct (Nat.leb_spec (align_up (4 * (length rows + 2)) a) (L - stored a rows)); f_equal; lia.
Qed.

(** Room computed by [row_ok]. *)
Lemma row_ok_room row : row_ok L a rows row ->
  4 * (length rows + 2) + stored a rows + align_up (length row) a <= L.
Proof.
  intros [H1 H2]. pose proof rep_pos as Ha. unfold capacity in H1.
  pose proof (align_up_ge (4 * (length rows + 2)) a Ha) as G.
  assert (F : 4 * (length rows + 2) + stored a rows <= L).
  { destruct H2 as [H2|H2]; [|exact H2]. destruct row; [congruence|]. cbn [length] in H1. lia. }
  assert (Du : Nat.divide a (L - stored a rows))
    by (apply divide_sub; [apply (rep_div _ _ _ R)|apply stored_divide]).
  pose proof (align_up_least (4 * (length rows + 2)) a (L - stored a rows) Ha Du ltac:(lia)) as G2.
  pose proof (align_up_least (length row) a
    (L - stored a rows - align_up (4 * (length rows + 2)) a) Ha
    ltac:(apply divide_sub; [exact Du|apply align_up_div]) H1). lia.
Qed.

End Reading.

(** ** Initialisation *)

Lemma initialize_ok a pg :
  is_pow2 (Z.of_nat a) = true -> Nat.divide a (length pg) -> 4 <= length pg ->
  (Z.of_nat (length pg) < 2 ^ 32)%Z ->
  exists pg', initialize_page a pg = Ret pg' /\ length pg' = length pg /\ Rep a pg' [].
Proof.
  intros Ha Hd Hm HM. unfold initialize_page.
  replace (4 <=? length pg) with true by lia.
  replace (Z.of_nat (length pg) <=? 2 ^ 32 - 1)%Z with true by lia.
  assert (Hpos := pow2_pos a Ha).
  assert (a <= length pg) by (apply Nat.divide_pos_le; [lia|exact Hd]).
  rewrite align_nat_value by (assumption || lia). cbn [bind].
  rewrite align_up_id by assumption. rewrite Nat.eqb_refl.
  rewrite set_u32_ok by lia. eexists; split; [reflexivity|].
  assert (EL := word_write_length pg 0 0%Z ltac:(lia)).
  split; [exact EL|]. constructor; rewrite ?EL; try assumption.
  - rewrite get_u32_write_same by lia. reflexivity.
  - intros [|i] r Hi; discriminate.
  - intros [|i] r Hi; discriminate.
Qed.

Lemma initialize_inv a pg pg' :
  initialize_page a pg = Ret pg' ->
  is_pow2 (Z.of_nat a) = true /\ Nat.divide a (length pg) /\ 4 <= length pg /\
  (Z.of_nat (length pg) < 2 ^ 32)%Z /\ length pg' = length pg /\ Rep a pg' [].
Proof.
  intros H. unfold initialize_page in H.
  destruct (Nat.leb_spec 4 (length pg)) as [H1|]; [|discriminate].
  destruct (Z.leb_spec (Z.of_nat (length pg)) (2 ^ 32 - 1)) as [H2|]; [|discriminate].
  destruct (is_pow2 (Z.of_nat a)) eqn:Ha.
  2:{ rewrite align_nat_not_pow2 in H by exact Ha. discriminate. }
  inv_bind H. rename a0 into l.
  destruct (Nat.eqb_spec l (length pg)) as [->|]; [|discriminate].
  assert (Hd : Nat.divide a (length pg)).
  { unfold align_nat in Ha0. inv_bind Ha0.
    destruct (Z.ltb_spec (Z.of_nat (length pg) + Z.of_nat a) (2 ^ 64)) as [Hs|Hs].
    - destruct (align_least Debug (Z.of_nat (length pg)) (Z.of_nat a) Ha ltac:(lia) Hs) as (r & Er & (Hq & Hr & _)).
      rewrite Er in Ha1. injection Ha1 as <-. injection Ha0 as E.
      destruct Hq as [q Hq]. pose proof (pow2_pos a Ha).
      assert (0 <= q)%Z by nia. exists (Z.to_nat q). apply Nat2Z.inj. rewrite Nat2Z.inj_mul, Z2Nat.id by lia. lia.
    - exfalso. unfold align, wadd in Ha1. rewrite Ha in Ha1.
      replace (Z.of_nat (length pg) + Z.of_nat a <? 2 ^ 64)%Z with false in Ha1 by lia. discriminate. }
  destruct (initialize_ok a pg Ha Hd H1 ltac:(lia)) as (pg'' & E & EL & ER).
  unfold initialize_page in E.
  replace (4 <=? length pg) with true in E by lia.
  replace (Z.of_nat (length pg) <=? 2 ^ 32 - 1)%Z with true in E by lia.
  rewrite Ha0 in E. cbn [bind] in E. rewrite Nat.eqb_refl in E.
  rewrite H in E. injection E as ->. repeat split; try assumption; try lia; apply ER.
Qed.

(** ** Append *)

Lemma nth_error_snoc {A} (l : list A) x i y :
  nth_error (l ++ [x]) i = Some y ->
  (nth_error l i = Some y /\ i < length l) \/ (i = length l /\ y = x).
Proof.
  intros H. destruct (Nat.lt_ge_cases i (length l)) as [Hl|Hl].
  - rewrite nth_error_app1 in H by exact Hl. auto.
  - rewrite nth_error_app2 in H by exact Hl. right.
    destruct (i - length l) as [|k] eqn:E; simpl in H.
    + injection H as ->. split; [lia|reflexivity].
    + destruct k; discriminate.
Qed.

Lemma base_app_old a L rows rows' i : i <= length rows -> base a L (rows ++ rows') i = base a L rows i.
Proof. intros H. unfold base. rewrite firstn_app. replace (i - length rows) with 0 by lia.
  simpl. rewrite app_nil_r. reflexivity. Qed.

Lemma append_ok a pg rows row :
  Rep a pg rows -> row_ok (length pg) a rows row ->
  exists pg', append_row a pg row = Ret pg' /\ length pg' = length pg /\ Rep a pg' (rows ++ [row]).
Proof.
  intros R Hok. set (L := length pg) in *. set (n := length rows).
  pose proof (row_ok_room R row Hok) as Room. fold L n in Room.
  pose proof (rep_pos R) as Hpos. pose proof (rep_max _ _ _ R) as Hmax. fold L in Hmax.
  unfold append_row. rewrite (rep_max_insert R). cbn [bind]. fold L.
  destruct Hok as [Hcap _]. replace (length row <=? capacity L a rows) with true by lia.
  rewrite (rep_num_rows R). cbn [bind].
  pose proof (align_up_ge (length row) a Hpos) as Hge.
  rewrite (rep_align R) by (fold L; lia). cbn [bind].
  rewrite (rep_upper R) by lia. cbn [bind]. fold L n. unfold n at 1. rewrite base_all. fold n.
  set (U := L - stored a rows). set (D := align_up (length row) a) in *.
  unfold usub. replace (D <=? U) with true by (unfold U; lia).
  replace (length row <=? D) with true by lia. cbn [bind].
  set (ro := U - D). assert (Hro : ro + D + stored a rows = L) by (unfold ro, U; lia).
  change (D - length row) with (pad a row).
  unfold copy_range.
  replace (ro <=? ro + length row) with true by lia.
  replace (ro + length row <=? length pg) with true by (fold L; lia).
  replace (ro + length row - ro =? length row) with true by lia. cbn [andb bind].
  set (pg1 := write pg ro row).
  assert (L1 : length pg1 = L) by (apply write_length; fold L; lia).
  set (iv := Z.lor (Z.of_nat ro) (Z.of_nat (pad a row))).
  assert (Hiv : iv = Z.of_nat (ro + pad a row)).
  { unfold iv. destruct (proj1 (is_pow2_true _) (rep_pow2 _ _ _ R)) as (k & Hk & Ek).
    assert (Dro : Nat.divide a ro).
    { unfold ro, U. apply divide_sub; [apply divide_sub; [apply (rep_div _ _ _ R)|apply stored_divide]|apply align_up_div]. }
    destruct Dro as [q Hq]. rewrite (lor_low_high _ _ k); [lia|exact Hk| |].
    - rewrite <- Ek, Hq, Nat2Z.inj_mul. apply Z.mod_mul. lia.
    - pose proof (pad_lt a row Hpos). lia. }
  assert (Bpad : length row + pad a row = D) by (apply pad_eq; exact Hpos).
  unfold set_row_offset. rewrite set_u32_ok by lia. cbn [bind].
  set (pg2 := write pg1 (4 * (n + 1)) (le_bytes 4 iv)).
  assert (L2 : length pg2 = L) by (unfold pg2; rewrite word_write_length; lia).
  unfold set_num_rows. rewrite set_u32_ok by lia.
  set (pg3 := write pg2 0 (le_bytes 4 (Z.of_nat (n + 1)))).
  assert (L3 : length pg3 = L) by (unfold pg3; rewrite word_write_length; lia).
  exists pg3. split; [reflexivity|]. split; [exact L3|].
  (* slices of the final page *)
  assert (S3 : forall o m, 4 <= o -> slice pg3 o m = slice pg2 o m)
    by (intros; apply word_write_other; lia).
  assert (S2 : forall o m, o + m <= 4 * (n + 1) \/ 4 * (n + 2) <= o -> slice pg2 o m = slice pg1 o m)
    by (intros; apply word_write_other; lia).
  assert (S1 : forall o m, o + m <= ro \/ ro + length row <= o -> slice pg1 o m = slice pg o m)
    by (intros; apply slice_write_other; fold L; lia).
  assert (Hn32 : (Z.of_nat (n + 1) < 2 ^ 32)%Z) by lia.
  constructor; rewrite ?L3.
  - apply (rep_pow2 _ _ _ R).
  - apply (rep_div _ _ _ R).
  - apply (rep_min _ _ _ R).
  - exact Hmax.
  - rewrite app_length, stored_app. change (stored a [row]) with (D + 0). fold n. simpl length. lia.
  - unfold pg3. rewrite get_u32_write_same by lia. rewrite app_length. fold n. simpl length. reflexivity.
  - intros i r Hi. apply nth_error_snoc in Hi as [[Hi Hlt]|[-> ->]].
    + rewrite base_app_old by lia. fold n in Hlt.
      rewrite (get_u32_slice pg pg3); [apply (rep_slot _ _ _ R i r Hi)|exact L3|].
      rewrite S3, S2, S1 by lia. reflexivity.
    + fold n. rewrite (get_u32_slice pg2 pg3) by (try apply S3; lia).
      unfold pg2. rewrite get_u32_write_same by lia. rewrite Hiv. do 2 f_equal. f_equal.
      unfold base. rewrite firstn_all2 by (rewrite app_length; fold n; simpl; lia).
      rewrite stored_app. change (stored a [row]) with (D + 0). lia.
  - intros i r Hi. apply nth_error_snoc in Hi as [[Hi Hlt]|[-> ->]].
    + rewrite base_app_old by lia. fold n in Hlt.
      pose proof (base_mono a L rows (S i) n ltac:(lia)) as Hb. unfold n in Hb. rewrite base_all in Hb. fold n in Hb.
      rewrite S3, S2, S1 by lia. apply (rep_data _ _ _ R i r Hi).
    + unfold base. rewrite firstn_all2 by (rewrite app_length; fold n; simpl; lia).
      rewrite stored_app. change (stored a [row]) with (D + 0).
      replace (L - (stored a rows + (D + 0))) with ro by lia.
      rewrite S3, S2 by lia. apply slice_write_same. fold L. lia.
Qed.

(** ** Insert *)

Lemma nth_error_insert {A} (l : list A) k x j : k <= length l ->
  nth_error (firstn k l ++ x :: skipn k l) j =
  if j <? k then nth_error l j else if j =? k then Some x else nth_error l (j - 1).
Proof.
  intros Hk. destruct (Nat.ltb_spec j k) as [H|H].
  - rewrite nth_error_app1 by (rewrite firstn_length; lia).
    rewrite nth_error_firstn. destruct (Nat.ltb_spec j k); [reflexivity|lia].
  - rewrite nth_error_app2 by (rewrite firstn_length; lia).
    rewrite firstn_length, Nat.min_l by lia.
    destruct (Nat.eqb_spec j k) as [->|Hne].
    + rewrite Nat.sub_diag. reflexivity.
    + destruct (j - k) as [|m] eqn:E; [lia|]. simpl. rewrite nth_error_skipn. f_equal. lia.
Qed.

Lemma stored_insert_low a rows k row j : j <= k -> k <= length rows ->
  stored a (firstn j (firstn k rows ++ row :: skipn k rows)) = stored a (firstn j rows).
Proof.
  intros H Hk. rewrite firstn_app, firstn_firstn, firstn_length.
  replace (Nat.min j k) with j by lia. replace (j - Nat.min k (length rows)) with 0 by lia.
  cbn [firstn]. rewrite app_nil_r. reflexivity.
Qed.

Lemma stored_insert_high a rows k row j : k <= j -> k <= length rows ->
  stored a (firstn (S j) (firstn k rows ++ row :: skipn k rows)) =
  stored a (firstn j rows) + align_up (length row) a.
Proof.
  intros H Hk. rewrite firstn_app, firstn_firstn, firstn_length.
  replace (Nat.min (S j) k) with k by lia.
  replace (S j - Nat.min k (length rows)) with (S (j - k)) by lia.
  cbn [firstn]. rewrite stored_app, stored_cons.
  replace (firstn j rows) with (firstn k rows ++ firstn (j - k) (skipn k rows)).
  - rewrite stored_app. lia.
  - rewrite <- (firstn_skipn k rows) at 3. rewrite firstn_app, firstn_firstn, firstn_length.
    replace (Nat.min j k) with k by lia. replace (Nat.min k (length rows)) with k by lia. reflexivity.
Qed.

(** The slot loop of [insert_row]: every slot moves one position up and loses [delta]. *)
Lemma shift_up_loop delta v cnt : forall index pg,
  4 * (index + cnt + 2) <= length pg ->
  (forall k, index <= k < index + cnt ->
     get_u32 pg (4 * (k + 1)) = Ret (Z.of_nat (v k)) /\ delta <= v k /\ (Z.of_nat (v k) < 2 ^ 32)%Z) ->
  exists pg', foldM (shift_slot_up delta) (rev (seq index cnt)) pg = Ret pg' /\
    length pg' = length pg /\
    (forall o m, o + m <= 4 * (index + 2) \/ 4 * (index + cnt + 2) <= o -> slice pg' o m = slice pg o m) /\
    (forall k, index <= k < index + cnt -> get_u32 pg' (4 * (k + 2)) = Ret (Z.of_nat (v k - delta))).
Proof.
  induction cnt as [|cnt IH]; intros index pg HL Hv.
  - exists pg. cbn [seq rev foldM]. repeat split; auto. intros; lia.
  - rewrite seq_S, rev_app_distr. cbn [rev app foldM].
    destruct (Hv (index + cnt) ltac:(lia)) as (Hg & Hd & Hb).
    unfold shift_slot_up at 1, get_row_offset, set_row_offset. rewrite Hg. cbn [bind].
    rewrite Nat2Z.id. unfold usub. replace (delta <=? v (index + cnt)) with true by lia. cbn [bind].
    replace (index + cnt + 1 + 1) with (index + cnt + 2) by lia.
    rewrite set_u32_ok by lia. cbn [bind].
    set (pg1 := write pg (4 * (index + cnt + 2)) (le_bytes 4 (Z.of_nat (v (index + cnt) - delta)))).
    assert (L1 : length pg1 = length pg) by (apply word_write_length; lia).
    assert (S1 : forall o m, o + m <= 4 * (index + cnt + 2) \/ 4 * (index + cnt + 3) <= o ->
                 slice pg1 o m = slice pg o m) by (intros; apply word_write_other; lia).
    destruct (IH index pg1) as (pg' & E & EL & ES & EG).
    + lia.
    + intros k Hk. destruct (Hv k ltac:(lia)) as (Hg' & Hd' & Hb'). split; [|split; assumption].
      rewrite <- Hg'. apply get_u32_slice; [exact L1|]. apply S1. lia.
    + exists pg'. split; [exact E|]. split; [lia|]. split.
      * intros o m Ho. rewrite ES by lia. apply S1. lia.
      * intros k Hk. destruct (Nat.eq_dec k (index + cnt)) as [->|Hne].
        -- rewrite (get_u32_slice pg1 pg') by (try (apply ES; lia); lia).
           unfold pg1. rewrite get_u32_write_same by lia. reflexivity.
        -- apply EG. lia.
Qed.

Lemma lor_slot a o d :
  is_pow2 (Z.of_nat a) = true -> Nat.divide a o -> d < a ->
  Z.lor (Z.of_nat o) (Z.of_nat d) = Z.of_nat (o + d).
Proof.
  intros Ha [q Hq] Hd. pose proof (pow2_pos a Ha).
  apply is_pow2_true in Ha as (k & Hk & Ek).
  rewrite (lor_low_high _ _ k); [lia|exact Hk| |lia].
  rewrite <- Ek, Hq, Nat2Z.inj_mul. apply Z.mod_mul. lia.
Qed.

Lemma insert_ok a pg rows index row :
  Rep a pg rows -> index <= length rows -> row_ok (length pg) a rows row ->
  exists pg', insert_row a pg index row = Ret pg' /\ length pg' = length pg /\
              Rep a pg' (firstn index rows ++ row :: skipn index rows).
Proof.
  intros R Hidx Hok. set (L := length pg) in *. set (n := length rows) in *.
  pose proof (row_ok_room R row Hok) as Room. fold L n in Room.
  pose proof (rep_pos R) as Hpos. pose proof (rep_max _ _ _ R) as Hmax. fold L in Hmax.
  unfold insert_row. rewrite (rep_max_insert R). cbn [bind]. fold L.
  pose proof (proj1 Hok) as Hcap. replace (length row <=? capacity L a rows) with true by lia.
  rewrite (rep_num_rows R). cbn [bind]. fold n.
  destruct (Nat.eqb_spec index n) as [->|Hne].
  { destruct (append_ok a pg rows row R Hok) as (pg' & E & EL & ER).
    exists pg'. split; [exact E|]. split; [exact EL|].
    unfold n. rewrite firstn_all, skipn_all. exact ER. }
  pose proof (align_up_ge (length row) a Hpos) as Hge.
  rewrite (rep_align R) by (fold L; lia). cbn [bind].
  unfold usub at 1. replace (1 <=? n) with true by lia. cbn [bind].
  rewrite (rep_aligned R) by (fold n; lia). cbn [bind]. fold L.
  replace (S (n - 1)) with n by lia. replace (base a L rows n) with (L - stored a rows) by (symmetry; apply base_all).
  rewrite (rep_upper R) by (fold n; lia). cbn [bind]. fold L.
  set (U := L - stored a rows). set (D := align_up (length row) a) in *.
  set (B := base a L rows index).
  assert (HB : U <= B).
  { unfold U, B. pose proof (base_mono a L rows index n ltac:(lia)) as Hb. unfold n in Hb. rewrite base_all in Hb. exact Hb. }
  assert (HBL : B <= L) by (unfold B, base; lia).
  unfold usub at 1. replace (D <=? U) with true by (unfold U; lia). cbn [bind].
  unfold usub at 1. replace (U <=? B) with true by lia. cbn [bind].
  unfold raw_copy. fold L.
  replace (U <=? L) with true by lia. replace (U - D <=? L) with true by lia. cbn [andb].
  replace (U + (B - U) <=? L) with true by lia. replace (U - D + (B - U) <=? L) with true by lia. cbn [andb bind].
  set (pg1 := write pg (U - D) (slice pg U (B - U))).
  assert (LS : length (slice pg U (B - U)) = B - U) by (apply slice_length; fold L; lia).
  assert (L1 : length pg1 = L) by (apply write_length; rewrite LS; fold L; lia).
  assert (S1 : forall o m, o + m <= U - D \/ B - D <= o -> slice pg1 o m = slice pg o m)
    by (intros; apply slice_write_other; rewrite LS; fold L; lia).
  assert (M1 : forall o m, U <= o -> o + m <= B -> slice pg1 (o - D) m = slice pg o m).
  { intros o m H1 H2.
    rewrite <- (Nat.sub_add U o) by lia.
    replace (o - U + U - D) with (U - D + (o - U)) by lia.
    rewrite <- (slice_slice pg1 (U - D) (B - U)) by lia.
    rewrite <- LS at 1. unfold pg1. rewrite slice_write_same by (rewrite LS; fold L; lia).
    rewrite slice_slice by lia. f_equal. lia. }
  (* slots *)
  set (v := fun k => base a L rows (S k) + match nth_error rows k with Some r => pad a r | None => 0 end).
  assert (Hv : forall k, index <= k < index + (n - index) ->
     get_u32 pg1 (4 * (k + 1)) = Ret (Z.of_nat (v k)) /\ D <= v k /\ (Z.of_nat (v k) < 2 ^ 32)%Z).
  { intros k Hk. unfold v. destruct (nth_error rows k) as [r|] eqn:Er.
    2:{ apply nth_error_None in Er. fold n in Er. lia. }
    split.
    - transitivity (get_u32 pg (4 * (k + 1))); [|apply (rep_slot _ _ _ R k r Er)]. apply get_u32_slice; [exact L1|]. apply S1. unfold U. lia.
    - pose proof (base_mono a L rows (S k) n ltac:(lia)) as Hb. unfold n in Hb. rewrite base_all in Hb.
      pose proof (rep_base_pad R k r Er) as [Hp _]. fold L in Hp, Hb. lia. }
  destruct (shift_up_loop D v (n - index) index pg1 ltac:(lia) Hv) as (pg2 & E2 & L2 & S2 & G2).
  rewrite E2. cbn [bind].
  unfold usub at 1. replace (length row <=? D) with true by lia. cbn [bind].
  change (D - length row) with (pad a row).
  unfold usub at 1. replace (D <=? B) with true by lia. cbn [bind].
  set (ro := B - D).
  assert (Bpad : length row + pad a row = D) by (apply pad_eq; exact Hpos).
  assert (Dro : Nat.divide a ro).
  { unfold ro. apply divide_sub; [apply base_divide, (rep_div _ _ _ R)|apply align_up_div]. }
  rewrite (lor_slot a) by (try apply (rep_pow2 _ _ _ R); try exact Dro; apply pad_lt; exact Hpos).
  unfold copy_range. rewrite L2, L1.
  replace (ro <=? ro + length row) with true by lia.
  replace (ro + length row <=? L) with true by lia.
  replace (ro + length row - ro =? length row) with true by lia. cbn [andb bind].
  set (pg3 := write pg2 ro row).
  assert (L3 : length pg3 = L) by (unfold pg3; rewrite write_length; lia).
  assert (S3 : forall o m, o + m <= ro \/ ro + length row <= o -> slice pg3 o m = slice pg2 o m)
    by (intros; apply slice_write_other; lia).
  unfold set_row_offset. rewrite set_u32_ok by lia. cbn [bind].
  set (pg4 := write pg3 (4 * (index + 1)) (le_bytes 4 (Z.of_nat (ro + pad a row)))).
  assert (L4 : length pg4 = L) by (unfold pg4; rewrite word_write_length; lia).
  assert (S4 : forall o m, o + m <= 4 * (index + 1) \/ 4 * (index + 2) <= o -> slice pg4 o m = slice pg3 o m)
    by (intros; apply word_write_other; lia).
  unfold set_num_rows. rewrite set_u32_ok by lia.
  set (pg5 := write pg4 0 (le_bytes 4 (Z.of_nat (n + 1)))).
  assert (L5 : length pg5 = L) by (unfold pg5; rewrite word_write_length; lia).
  assert (S5 : forall o m, 4 <= o -> slice pg5 o m = slice pg4 o m)
    by (intros; apply word_write_other; lia).
  exists pg5. split; [reflexivity|]. split; [exact L5|].
  set (rows' := firstn index rows ++ row :: skipn index rows).
  assert (Len' : length rows' = n + 1).
  { unfold rows'. rewrite app_length, firstn_length. cbn [length]. rewrite skipn_length. fold n. lia. }
  assert (Blow : forall j, j <= index -> base a L rows' j = base a L rows j).
  { intros j Hj. unfold base, rows'. rewrite stored_insert_low by (fold n; lia). reflexivity. }
  assert (Bhigh : forall j, index <= j -> base a L rows' (S j) = base a L rows j - D).
  { intros j Hj. unfold base, rows'. rewrite stored_insert_high by (fold n; lia). fold D. lia. }
  assert (Tot : stored a rows' = stored a rows + D).
  { pose proof (stored_insert_high a rows index row n ltac:(lia) ltac:(fold n; lia)) as HT.
    fold rows' in HT. rewrite <- Len' in HT at 1 || idtac.
    rewrite (firstn_all2 rows') in HT by lia. unfold n in HT. rewrite firstn_all in HT. exact HT. }
  assert (UB : forall j, j <= n -> U <= base a L rows j).
  { intros j Hj. pose proof (base_mono a L rows j n Hj) as Hb. unfold n in Hb. rewrite base_all in Hb. exact Hb. }
  constructor; rewrite ?L5.
  - apply (rep_pow2 _ _ _ R).
  - apply (rep_div _ _ _ R).
  - apply (rep_min _ _ _ R).
  - exact Hmax.
  - rewrite Len', Tot. lia.
  - unfold pg5. rewrite get_u32_write_same by lia. rewrite Len'. reflexivity.
  - intros j r Hj. unfold rows' in Hj. rewrite nth_error_insert in Hj by (fold n; lia).
    destruct (Nat.ltb_spec j index) as [Hj1|Hj1].
    + rewrite Blow by lia. transitivity (get_u32 pg (4 * (j + 1))); [|apply (rep_slot _ _ _ R j r Hj)]. apply get_u32_slice; [exact L5|].
      rewrite S5, S4, S3, S2, S1 by lia. reflexivity.
    + destruct (Nat.eqb_spec j index) as [->|Hj2].
      * injection Hj as <-. rewrite Bhigh by lia. fold B. fold ro.
        rewrite (get_u32_slice pg4 pg5) by (try apply S5; lia).
        unfold pg4. rewrite get_u32_write_same by lia. reflexivity.
      * destruct j as [|k]; [lia|]. replace (S k - 1) with k in Hj by lia.
        assert (k < n) by (apply nth_error_Some; congruence).
        rewrite Bhigh by lia.
        rewrite (get_u32_slice pg2 pg5) by (try (rewrite S5, S4, S3 by lia; reflexivity); lia).
        replace (4 * (S k + 1)) with (4 * (k + 2)) by lia. rewrite G2 by lia.
        unfold v. rewrite Hj. do 2 f_equal. pose proof (UB (S k) ltac:(lia)). lia.
  - intros j r Hj. unfold rows' in Hj. rewrite nth_error_insert in Hj by (fold n; lia).
    destruct (Nat.ltb_spec j index) as [Hj1|Hj1].
    + rewrite Blow by lia.
      pose proof (base_mono a L rows (S j) index ltac:(lia)) as Hb. fold B in Hb.
      rewrite S5, S4, S3, S2, S1 by lia. apply (rep_data _ _ _ R j r Hj).
    + destruct (Nat.eqb_spec j index) as [->|Hj2].
      * injection Hj as <-. rewrite Bhigh by lia. fold B. fold ro.
        rewrite S5, S4 by lia. apply slice_write_same. lia.
      * destruct j as [|k]; [lia|]. replace (S k - 1) with k in Hj by lia.
        assert (k < n) by (apply nth_error_Some; congruence).
        rewrite Bhigh by lia.
        pose proof (UB (S k) ltac:(lia)) as Hu.
        pose proof (rep_base_pad R k r Hj) as [_ Hp]. fold L in Hp.
        pose proof (base_mono a L rows index k ltac:(lia)) as Hb. fold B in Hb.
        rewrite S5, S4, S3, S2 by lia. rewrite M1 by lia. apply (rep_data _ _ _ R k r Hj).
Qed.

(** ** Remove *)

Lemma nth_error_remove {A} (l : list A) k j :
  nth_error (firstn k l ++ skipn (S k) l) j = if j <? k then nth_error l j else nth_error l (S j).
Proof.
  revert k j. induction l as [|x l IH]; intros k j.
  - rewrite firstn_nil, skipn_nil. destruct j; destruct (_ <? _); reflexivity.
  - destruct k as [|k]; [reflexivity|]. destruct j as [|j]; [reflexivity|].
    cbn [firstn skipn app nth_error]. rewrite IH. reflexivity.
Qed.

Lemma firstn_remove_low {A} (l : list A) k j : j <= k ->
  firstn j (firstn k l ++ skipn (S k) l) = firstn j l.
Proof.
  intros H. apply list_ext. intros i. rewrite !nth_error_firstn, nth_error_remove.
  destruct (Nat.ltb_spec i j); [|reflexivity]. destruct (Nat.ltb_spec i k); [reflexivity|lia].
Qed.

Lemma stored_remove_high a rows k row j : nth_error rows k = Some row -> k <= j ->
  stored a (firstn j (firstn k rows ++ skipn (S k) rows)) + align_up (length row) a =
  stored a (firstn (S j) rows).
Proof.
  intros H Hj. assert (Hk : k < length rows) by (apply nth_error_Some; congruence).
  rewrite firstn_app, firstn_firstn, firstn_length.
  replace (Nat.min j k) with k by lia. replace (Nat.min k (length rows)) with k by lia.
  rewrite stored_app.
  rewrite (stored_split a (firstn (S j) rows) (S k)), firstn_firstn.
  replace (Nat.min (S k) (S j)) with (S k) by lia.
  rewrite (stored_firstn_S _ _ _ _ H). rewrite skipn_firstn_comm. replace (S j - S k) with (j - k) by lia. lia.
Qed.

Lemma shift_down_loop delta v cnt : forall index pg,
  1 <= index -> 4 * (index + cnt + 1) <= length pg ->
  (forall k, index <= k < index + cnt ->
     get_u32 pg (4 * (k + 1)) = Ret (Z.of_nat (v k)) /\ (Z.of_nat (v k + delta) < 2 ^ 32)%Z) ->
  exists pg', foldM (shift_slot_down delta) (seq index cnt) pg = Ret pg' /\
    length pg' = length pg /\
    (forall o m, o + m <= 4 * index \/ 4 * (index + cnt) <= o -> slice pg' o m = slice pg o m) /\
    (forall k, index <= k < index + cnt -> get_u32 pg' (4 * k) = Ret (Z.of_nat (v k + delta))).
Proof.
  induction cnt as [|cnt IH]; intros index pg H1 HL Hv.
  - exists pg. cbn [seq foldM]. repeat split; auto. intros; lia.
  - cbn [seq foldM]. destruct (Hv index ltac:(lia)) as (Hg & Hb).
    unfold shift_slot_down at 1, get_row_offset, set_row_offset. rewrite Hg. cbn [bind].
    rewrite Nat2Z.id. unfold usub. replace (1 <=? index) with true by lia. cbn [bind].
    replace (index - 1 + 1) with index by lia. rewrite set_u32_ok by lia. cbn [bind].
    set (pg1 := write pg (4 * index) (le_bytes 4 (Z.of_nat (v index + delta)))).
    assert (L1 : length pg1 = length pg) by (apply word_write_length; lia).
    assert (S1 : forall o m, o + m <= 4 * index \/ 4 * (index + 1) <= o ->
                 slice pg1 o m = slice pg o m) by (intros; apply word_write_other; lia).
    destruct (IH (S index) pg1) as (pg' & E & EL & ES & EG).
    + lia.
    + lia.
    + intros k Hk. destruct (Hv k ltac:(lia)) as (Hg' & Hb'). split; [|assumption].
      rewrite <- Hg'. apply get_u32_slice; [exact L1|]. apply S1. lia.
    + exists pg'. split; [exact E|]. split; [lia|]. split.
      * intros o m Ho. rewrite ES by lia. apply S1. lia.
      * intros k Hk. destruct (Nat.eq_dec k index) as [->|Hne].
        -- rewrite (get_u32_slice pg1 pg') by (try (apply ES; lia); lia).
           unfold pg1. rewrite get_u32_write_same by lia. reflexivity.
        -- apply EG. lia.
Qed.

Lemma remove_ok a pg rows index :
  Rep a pg rows -> index < length rows ->
  exists pg', remove_row a pg index = Ret pg' /\ length pg' = length pg /\
              Rep a pg' (firstn index rows ++ skipn (S index) rows).
Proof.
  intros R Hidx. set (L := length pg) in *. set (n := length rows) in *.
  pose proof (rep_pos R) as Hpos. pose proof (rep_max _ _ _ R) as Hmax. fold L in Hmax.
  pose proof (rep_space _ _ _ R) as Space. fold L n in Space.
  set (rows' := firstn index rows ++ skipn (S index) rows).
  assert (Len' : length rows' = n - 1).
  { unfold rows'. rewrite app_length, firstn_length, skipn_length. fold n. lia. }
  destruct (nth_error rows index) as [row|] eqn:Erow.
  2:{ apply nth_error_None in Erow. fold n in Erow. lia. }
  set (D := align_up (length row) a).
  assert (Blow : forall j, j <= index -> base a L rows' j = base a L rows j).
  { intros j Hj. unfold base, rows'. rewrite firstn_remove_low by lia. reflexivity. }
  assert (Bhigh : forall j, index <= j -> base a L rows' j = base a L rows (S j) + D).
  { intros j Hj. unfold base. pose proof (stored_remove_high a rows index row j Erow Hj) as HS.
    fold rows' D in HS. pose proof (stored_firstn_total a rows (S j)). lia. }
  assert (Tot : stored a rows' + D = stored a rows).
  { pose proof (stored_remove_high a rows index row n Erow ltac:(lia)) as HS. fold rows' D in HS.
    rewrite (firstn_all2 rows') in HS by lia. rewrite firstn_all2 in HS by (fold n; lia). exact HS. }
  unfold remove_row. rewrite (rep_num_rows R). cbn [bind]. fold n.
  replace (index <? n) with true by lia.
  destruct (Nat.ltb_spec index (n - 1)) as [Hi|Hi].
  2:{ (* last row: only the counter changes *)
    unfold set_num_rows. rewrite set_u32_ok by (fold L; lia).
    set (pg1 := write pg 0 (le_bytes 4 (Z.of_nat (n - 1)))).
    assert (L1 : length pg1 = L) by (unfold pg1; rewrite word_write_length; fold L; lia).
    assert (S1 : forall o m, 4 <= o -> slice pg1 o m = slice pg o m)
      by (intros; apply word_write_other; fold L; lia).
    exists pg1. split; [reflexivity|]. split; [exact L1|].
    constructor; rewrite ?L1.
    - apply (rep_pow2 _ _ _ R).
    - apply (rep_div _ _ _ R).
    - apply (rep_min _ _ _ R).
    - exact Hmax.
    - lia.
    - unfold pg1. rewrite get_u32_write_same by (fold L; lia). rewrite Len'. reflexivity.
    - intros j r Hj. assert (j < n - 1) by (rewrite <- Len'; apply nth_error_Some; congruence).
      unfold rows' in Hj. rewrite nth_error_remove in Hj. replace (j <? index) with true in Hj by lia.
      rewrite Blow by lia. transitivity (get_u32 pg (4 * (j + 1))); [|apply (rep_slot _ _ _ R j r Hj)]. apply get_u32_slice; [exact L1|].
      apply S1. lia.
    - intros j r Hj. assert (j < n - 1) by (rewrite <- Len'; apply nth_error_Some; congruence).
      unfold rows' in Hj. rewrite nth_error_remove in Hj. replace (j <? index) with true in Hj by lia.
      rewrite Blow by lia. pose proof (base_mono a L rows (S j) n ltac:(lia)) as Hb.
      unfold n in Hb. rewrite base_all in Hb. fold n in Hb.
      rewrite S1 by lia. apply (rep_data _ _ _ R j r Hj). }
  rewrite (rep_aligned R) by (fold n; lia). cbn [bind].
  rewrite (rep_upper R) by (fold n; lia). cbn [bind].
  rewrite (rep_aligned R) by (fold n; lia). cbn [bind]. fold L.
  replace (S (n - 1)) with n by lia. replace (base a L rows n) with (L - stored a rows) by (symmetry; apply base_all).
  pose proof (base_S a L rows index row Erow ltac:(lia)) as HBS. fold D in HBS.
  set (P := base a L rows (S index)) in *. set (B := base a L rows index) in *.
  set (U := L - stored a rows).
  assert (HU : forall j, j <= n -> U <= base a L rows j).
  { intros j Hj. pose proof (base_mono a L rows j n Hj) as Hb. unfold n in Hb. rewrite base_all in Hb. exact Hb. }
  pose proof (HU (S index) ltac:(lia)) as HUP. fold P in HUP.
  assert (HBL : B <= L) by (unfold B, base; lia).
  unfold usub at 1. replace (P <=? B) with true by lia. cbn [bind].
  replace (B - P) with D by lia.
  set (v := fun k => base a L rows (S k) + match nth_error rows k with Some r => pad a r | None => 0 end).
  assert (Hv : forall k, index + 1 <= k < index + 1 + (n - (index + 1)) ->
     get_u32 pg (4 * (k + 1)) = Ret (Z.of_nat (v k)) /\ (Z.of_nat (v k + D) < 2 ^ 32)%Z).
  { intros k Hk. unfold v. destruct (nth_error rows k) as [r|] eqn:Er.
    2:{ apply nth_error_None in Er. fold n in Er. lia. }
    split; [apply (rep_slot _ _ _ R k r Er)|].
    pose proof (rep_base_pad R k r Er) as [_ Hp]. fold L in Hp.
    pose proof (base_mono a L rows (S index) k ltac:(lia)) as Hb. fold P in Hb. lia. }
  destruct (shift_down_loop D v (n - (index + 1)) (index + 1) pg ltac:(lia) ltac:(fold L; lia) Hv)
    as (pg1 & E1 & L1 & S1 & G1). fold L in L1.
  rewrite E1. cbn [bind].
  unfold usub at 1. replace (U <=? P) with true by lia. cbn [bind].
  unfold raw_copy. rewrite L1.
  replace (U <=? L) with true by lia. replace (U + D <=? L) with true by lia. cbn [andb].
  replace (U + (P - U) <=? L) with true by lia. replace (U + D + (P - U) <=? L) with true by lia. cbn [andb bind].
  assert (LS : length (slice pg1 U (P - U)) = P - U) by (apply slice_length; lia).
  set (pg2 := write pg1 (U + D) (slice pg1 U (P - U))).
  assert (L2 : length pg2 = L) by (unfold pg2; rewrite write_length; rewrite ?LS; lia).
  assert (S2 : forall o m, o + m <= U + D \/ B <= o -> slice pg2 o m = slice pg1 o m)
    by (intros; apply slice_write_other; rewrite LS; lia).
  assert (M2 : forall o m, U <= o -> o + m <= P -> slice pg2 (o + D) m = slice pg1 o m).
  { intros o m H1 H2. replace (o + D) with (U + D + (o - U)) by lia.
    rewrite <- (slice_slice pg2 (U + D) (P - U)) by lia.
    rewrite <- LS at 1. unfold pg2. rewrite slice_write_same by (rewrite LS; lia).
    rewrite slice_slice by lia. f_equal. lia. }
  unfold set_num_rows. rewrite set_u32_ok by lia.
  set (pg3 := write pg2 0 (le_bytes 4 (Z.of_nat (n - 1)))).
  assert (L3 : length pg3 = L) by (unfold pg3; rewrite word_write_length; lia).
  assert (S3 : forall o m, 4 <= o -> slice pg3 o m = slice pg2 o m)
    by (intros; apply word_write_other; lia).
  exists pg3. split; [reflexivity|]. split; [exact L3|].
  constructor; rewrite ?L3.
  - apply (rep_pow2 _ _ _ R).
  - apply (rep_div _ _ _ R).
  - apply (rep_min _ _ _ R).
  - exact Hmax.
  - lia.
  - unfold pg3. rewrite get_u32_write_same by lia. rewrite Len'. reflexivity.
  - intros j r Hj. assert (j < n - 1) by (rewrite <- Len'; apply nth_error_Some; congruence).
    unfold rows' in Hj. rewrite nth_error_remove in Hj.
    destruct (Nat.ltb_spec j index) as [Hj1|Hj1].
    + rewrite Blow by lia. transitivity (get_u32 pg (4 * (j + 1))); [|apply (rep_slot _ _ _ R j r Hj)]. apply get_u32_slice; [exact L3|].
      rewrite S3, S2, S1 by lia. reflexivity.
    + rewrite Bhigh by lia.
      rewrite (get_u32_slice pg1 pg3) by (try (rewrite S3, S2 by lia; reflexivity); lia).
      replace (4 * (j + 1)) with (4 * S j) by lia. rewrite G1 by lia.
      unfold v. rewrite Hj. do 2 f_equal. lia.
  - intros j r Hj. assert (j < n - 1) by (rewrite <- Len'; apply nth_error_Some; congruence).
    unfold rows' in Hj. rewrite nth_error_remove in Hj.
    destruct (Nat.ltb_spec j index) as [Hj1|Hj1].
    + rewrite Blow by lia.
      pose proof (base_mono a L rows (S j) index ltac:(lia)) as Hb. fold B in Hb.
      rewrite S3, S2, S1 by lia. apply (rep_data _ _ _ R j r Hj).
    + rewrite Bhigh by lia.
      pose proof (HU (S (S j)) ltac:(lia)) as Hu.
      pose proof (rep_base_pad R (S j) r Hj) as [_ Hp]. fold L in Hp.
      pose proof (base_mono a L rows (S index) (S j) ltac:(lia)) as Hb. fold P in Hb.
      rewrite S3 by lia. rewrite M2 by lia. rewrite S1 by lia. apply (rep_data _ _ _ R (S j) r Hj).
Qed.

(** ** Histories *)

Lemma op_ok_step a pg rows op :
  Rep a pg rows -> op_ok (length pg) a rows op ->
  exists pg', apply_op a pg op = Ret pg' /\ length pg' = length pg /\ Rep a pg' (spec_op rows op).
Proof.
  intros R Hok. destruct op as [row|i row|i]; cbn [op_ok apply_op spec_op] in *.
  - apply append_ok; assumption.
  - destruct Hok as [Hi Hr]. apply insert_ok; assumption.
  - apply remove_ok; assumption.
Qed.

Lemma legal_run a ops : forall pg rows rows',
  Rep a pg rows -> legal (length pg) a rows ops rows' ->
  exists pg', foldM (apply_op a) ops pg = Ret pg' /\ length pg' = length pg /\ Rep a pg' rows'.
Proof.
  induction ops as [|op ops IH]; intros pg rows rows' R HL.
  - inversion HL; subst. exists pg. repeat split; try reflexivity; apply R.
  - inversion HL as [|? ? ? ? Hop Hrest]; subst.
    destruct (op_ok_step a pg rows op R Hop) as (pg1 & E1 & L1 & R1).
    rewrite <- L1 in Hrest.
    destruct (IH pg1 _ _ R1 Hrest) as (pg' & E' & L' & R').
    exists pg'. cbn [foldM]. rewrite E1. cbn [bind]. split; [exact E'|]. split; [congruence|exact R'].
Qed.

Lemma holds_rep a pg rows : holds a pg rows -> Rep a pg rows.
Proof.
  intros (pgi & pg0 & ops & Hi & Hl & Hr).
  destruct (initialize_inv a pgi pg0 Hi) as (_ & _ & _ & _ & L0 & R0). rewrite <- L0 in Hl.
  destruct (legal_run a ops pg0 [] rows R0 Hl) as (pg' & E & _ & R). rewrite Hr in E. injection E as ->. exact R.
Qed.

Lemma initialize_iff a pg :
  (exists pg', initialize_page a pg = Ret pg') <->
  is_pow2 (Z.of_nat a) = true /\ Nat.divide a (length pg) /\ 4 <= length pg /\ (Z.of_nat (length pg) < 2 ^ 32)%Z.
Proof.
  split.
  - intros [pg' H]. destruct (initialize_inv a pg pg' H) as (A & B & C & D & _). auto.
  - intros (A & B & C & D). destruct (initialize_ok a pg A B C D) as (pg' & E & _). eauto.
Qed.

Lemma history_refines a pg pg0 ops rows :
  initialize_page a pg = Ret pg0 -> legal (length pg) a [] ops rows ->
  exists pg', foldM (apply_op a) ops pg0 = Ret pg' /\ length pg' = length pg /\ shows a pg' rows.
Proof.
  intros Hi Hl. destruct (initialize_inv a pg pg0 Hi) as (_ & _ & _ & _ & L0 & R0). rewrite <- L0 in Hl.
  destruct (legal_run a ops pg0 [] rows R0 Hl) as (pg' & E & EL & R).
  exists pg'. split; [exact E|]. split; [congruence|]. apply rep_shows. exact R.
Qed.

Lemma holds_step a pg rows op :
  holds a pg rows -> op_ok (length pg) a rows op ->
  exists pg', apply_op a pg op = Ret pg' /\ length pg' = length pg /\ holds a pg' (spec_op rows op).
Proof.
  intros H Hop. pose proof (holds_rep _ _ _ H) as R.
  destruct (op_ok_step a pg rows op R Hop) as (pg' & E & EL & _).
  exists pg'. split; [exact E|]. split; [exact EL|].
  destruct H as (pgi & pg0 & ops & Hi & Hl & Hr).
  assert (Len : length pg = length pgi).
  { destruct (initialize_inv a pgi pg0 Hi) as (_ & _ & _ & _ & L0 & R0). rewrite <- L0 in Hl.
    destruct (legal_run a ops pg0 [] rows R0 Hl) as (pg1 & E1 & EL1 & _). congruence. }
  exists pgi, pg0, (ops ++ [op]). split; [exact Hi|]. split.
  - rewrite Len in Hop. clear - Hl Hop. revert Hop. induction Hl as [rows|rows o ops rows' Ho Hl IH]; intros Hop.
    + cbn [app]. econstructor; [exact Hop|constructor].
    + cbn [app]. econstructor; [exact Ho|]. apply IH. exact Hop.
  - clear - Hr E. revert pg0 Hr. induction ops as [|o ops IH]; intros pg0 Hr; cbn [foldM app] in *.
    + injection Hr as ->. rewrite E. reflexivity.
    + destruct (apply_op a pg0 o) as [p1| |]; try discriminate. cbn [bind] in *. apply IH. exact Hr.
Qed.

(** ** Rejections *)

Lemma append_too_long a pg rows row :
  Rep a pg rows -> capacity (length pg) a rows < length row -> append_row a pg row = Panic.
Proof.
  intros R H. unfold append_row. rewrite (rep_max_insert R). cbn [bind].
  replace (length row <=? capacity (length pg) a rows) with false by lia. reflexivity.
Qed.

Lemma insert_too_long a pg rows index row :
  Rep a pg rows -> capacity (length pg) a rows < length row -> insert_row a pg index row = Panic.
Proof.
  intros R H. unfold insert_row. rewrite (rep_max_insert R). cbn [bind].
  replace (length row <=? capacity (length pg) a rows) with false by lia. reflexivity.
Qed.

Lemma capacity_le_len len a rows : capacity len a rows <= len.
Proof. unfold capacity. lia. Qed.

Lemma insert_out_of_range a pg rows index row :
  Rep a pg rows -> length rows < index -> insert_row a pg index row = Panic.
Proof.
  intros R H. unfold insert_row. rewrite (rep_max_insert R). cbn [bind].
  destruct (Nat.leb_spec (length row) (capacity (length pg) a rows)) as [Hc|Hc]; [|reflexivity].
  rewrite (rep_num_rows R). cbn [bind].
  replace (index =? length rows) with false by lia.
  pose proof (capacity_le_len (length pg) a rows).
  rewrite (rep_align R) by lia. cbn [bind]. unfold usub at 1.
  destruct (Nat.leb_spec 1 (length rows)) as [Hn|Hn]; [|reflexivity]. cbn [bind].
  rewrite (rep_aligned R) by lia. cbn [bind].
  replace (0 <? index) with true by lia.
  rewrite (rep_aligned_panic R) by lia. reflexivity.
Qed.

Lemma remove_out_of_range a pg rows index :
  Rep a pg rows -> length rows <= index -> remove_row a pg index = Panic.
Proof.
  intros R H. unfold remove_row. rewrite (rep_num_rows R). cbn [bind].
  replace (index <? length rows) with false by lia. reflexivity.
Qed.

(** ** Empty rows on a full page *)

(** When no further slot fits, appending an empty row panics if the slot would leave the page, and otherwise
    stores the slot over the row area. *)
Lemma append_empty_full a pg rows :
  Rep a pg rows -> ~ slot_fits (length pg) a rows ->
  append_row a pg [] =
    if 4 * (length rows + 2) <=? length pg
    then Ret (write (write pg (4 * (length rows + 1)) (le_bytes 4 (Z.of_nat (length pg - stored a rows))))
                    0 (le_bytes 4 (Z.of_nat (length rows + 1))))
    else Panic.
Proof.
  intros R Hf. unfold slot_fits in Hf. pose proof (rep_space _ _ _ R) as Hs. pose proof (rep_pos R) as Hp.
  unfold append_row. rewrite (rep_max_insert R). cbn [bind length].
  cbn [Nat.leb]. rewrite (rep_num_rows R). cbn [bind].
  rewrite (rep_align R) by lia. cbn [bind]. rewrite (rep_upper R) by lia. cbn [bind].
  rewrite base_all. rewrite (align_up_id 0 a Hp) by (exists 0; reflexivity).
  unfold usub. cbn [Nat.leb bind]. rewrite Nat.sub_0_r. cbn [Nat.sub].
  change (Z.of_nat 0) with 0%Z. rewrite Z.lor_0_r.
  unfold copy_range. rewrite Nat.add_0_r. cbn [length].
  replace (length pg - stored a rows <=? length pg - stored a rows) with true by lia.
  replace (length pg - stored a rows <=? length pg) with true by lia.
  replace (length pg - stored a rows - (length pg - stored a rows) =? 0) with true by lia. cbn [andb bind].
  rewrite write_nil. unfold set_row_offset, set_u32 at 1.
  replace (4 * (length rows + 1) + 4) with (4 * (length rows + 2)) by lia.
  destruct (Nat.leb_spec (4 * (length rows + 2)) (length pg)) as [H1|H1]; [|reflexivity].
  cbn [bind]. unfold set_num_rows. rewrite set_u32_ok; [reflexivity|].
  rewrite word_write_length by lia. lia.
Qed.

(** Some row byte is overwritten by that slot: the slot covers bytes of the row area. *)
Lemma append_empty_full_overlap a pg rows pg' :
  Rep a pg rows -> ~ slot_fits (length pg) a rows -> append_row a pg [] = Ret pg' ->
  let upper := length pg - stored a rows in
  4 * (length rows + 1) <= upper < 4 * (length rows + 2) /\ upper < length pg /\
  get_u32 pg' (4 * (length rows + 1)) = Ret (Z.of_nat upper).
Proof.
  intros R Hf H upper. rewrite (append_empty_full a pg rows R Hf) in H.
  destruct (Nat.leb_spec (4 * (length rows + 2)) (length pg)) as [H1|H1]; [|discriminate].
  pose proof (rep_space _ _ _ R) as Hs. pose proof (rep_max _ _ _ R). unfold slot_fits in Hf. unfold upper.
  split; [lia|]. split; [lia|].
  assert (E : pg' = write (write pg (4 * (length rows + 1)) (le_bytes 4 (Z.of_nat (length pg - stored a rows))))
                    0 (le_bytes 4 (Z.of_nat (length rows + 1)))) by congruence.
  subst pg'. set (pg1 := write pg _ _).
  assert (L1 : length pg1 = length pg) by (apply word_write_length; lia).
  rewrite (get_u32_slice pg1).
  - unfold pg1. apply get_u32_write_same; lia.
  - apply word_write_length. lia.
  - apply word_write_other; lia.
Qed.

(** The last row, read back after such an append, starts with bytes of the slot word. *)
Lemma append_empty_full_corrupts a pg rows last pg' :
  Rep a pg (rows ++ [last]) -> ~ slot_fits (length pg) a (rows ++ [last]) ->
  append_row a pg [] = Ret pg' ->
  let upper := length pg - stored a (rows ++ [last]) in
  let k := 4 * (length rows + 3) - upper in
  1 <= k <= 4 /\
  (k <= length last ->
   get_row a pg' (length rows) = Ret (skipn (4 - k) (le_bytes 4 (Z.of_nat upper)) ++ skipn k last)).
Proof.
  intros R Hf H upper k.
  destruct (append_empty_full_overlap _ _ _ _ R Hf H) as (Hu & HuL & _). fold upper in Hu, HuL.
  rewrite app_length in Hu. cbn [length] in Hu.
  split; [unfold k; lia|]. intros Hk.
  rewrite (append_empty_full _ _ _ R Hf) in H.
  assert (Ln : length (rows ++ [last]) = length rows + 1) by (rewrite app_length; reflexivity).
  rewrite Ln in H. set (n := length rows) in *. fold upper in H.
  replace (4 * (n + 1 + 2)) with (4 * (n + 3)) in H by lia.
  replace (4 * (n + 1 + 1)) with (4 * (n + 2)) in H by lia.
  destruct (Nat.leb_spec (4 * (n + 3)) (length pg)) as [H1|H1]; [|discriminate].
  set (pg1 := write pg (4 * (n + 2)) (le_bytes 4 (Z.of_nat upper))) in H.
  assert (E : pg' = write pg1 0 (le_bytes 4 (Z.of_nat (n + 1 + 1)))) by congruence. clear H. subst pg'.
  assert (L1 : length pg1 = length pg) by (apply word_write_length; lia).
  assert (S1 : forall o m, o + m <= 4 * (n + 2) \/ 4 * (n + 3) <= o -> slice pg1 o m = slice pg o m)
    by (intros; apply word_write_other; lia).
  set (pg2 := write pg1 0 (le_bytes 4 (Z.of_nat (n + 1 + 1)))).
  assert (L2 : length pg2 = length pg) by (unfold pg2; rewrite word_write_length; lia).
  assert (S2 : forall o m, 4 <= o -> slice pg2 o m = slice pg1 o m)
    by (intros; apply word_write_other; lia).
  pose proof (rep_max _ _ _ R) as Hmax.
  assert (N2 : num_rows pg2 = Ret (n + 2)).
  { unfold num_rows, pg2. rewrite get_u32_write_same by lia. cbn [bind]. f_equal. lia. }
  assert (Hlast : nth_error (rows ++ [last]) n = Some last).
  { rewrite nth_error_app2 by (fold n; lia). unfold n. rewrite Nat.sub_diag. reflexivity. }
  assert (SL : forall i, i <= n -> get_row_offset pg2 i = get_row_offset pg i).
  { intros i Hi. unfold get_row_offset. apply get_u32_slice; [exact L2|]. rewrite S2, S1 by lia. reflexivity. }
  assert (P : row_offset_padding a pg2 n = row_offset_padding a pg n).
  { unfold row_offset_padding. rewrite N2, (rep_num_rows R), SL by lia. cbn [bind].
    rewrite Ln. replace (n <? n + 2) with true by lia. replace (n <? n + 1) with true by lia. reflexivity. }
  assert (Up : (if 0 <? n then aligned_row_offset a pg2 (n - 1) else Ret (length pg2)) =
               Ret (base a (length pg) (rows ++ [last]) n)).
  { rewrite <- (rep_upper R) by lia. rewrite L2. destruct (0 <? n) eqn:En; [|reflexivity].
    unfold aligned_row_offset. rewrite N2, (rep_num_rows R), SL by lia. cbn [bind].
    rewrite Ln. replace (n - 1 <? n + 2) with true by lia. replace (n - 1 <? n + 1) with true by lia. reflexivity. }
  unfold get_row. rewrite P, (rep_row_offset_padding R n last Hlast). cbn [bind].
  rewrite Up. cbn [bind].
  pose proof (rep_base_pad R n last Hlast) as [Hb1 Hb2].
  assert (Bu : base a (length pg) (rows ++ [last]) (S n) = upper).
  { unfold upper. rewrite <- base_all. f_equal. lia. }
  rewrite Bu in *. set (B := base a (length pg) (rows ++ [last]) n) in *.
  assert (B <= length pg) by (unfold B, base; lia).
  unfold usub. replace (pad a last <=? B) with true by lia. cbn [bind].
  unfold index_range. rewrite L2.
  replace (upper <=? B - pad a last) with true by lia.
  replace (B - pad a last <=? length pg) with true by lia. cbn [andb]. f_equal.
  replace (B - pad a last - upper) with (length last) by lia.
  rewrite S2 by lia.
  pose proof (rep_data _ _ _ R n last Hlast) as Hd. rewrite Bu in Hd.
  assert (LB : length (le_bytes 4 (Z.of_nat upper)) = 4) by apply le_bytes_length.
  apply list_ext. intros i. rewrite nth_error_slice.
  destruct (Nat.ltb_spec i (length last)) as [Hi|Hi].
  - unfold pg1. rewrite nth_error_write by (rewrite LB; lia). rewrite LB.
    destruct (Nat.ltb_spec i k) as [Hik|Hik].
    + replace ((4 * (n + 2) <=? upper + i) && (upper + i <? 4 * (n + 2) + 4)) with true by (unfold k in *; lia).
      rewrite nth_error_app1 by (rewrite skipn_length, LB; unfold k in *; lia).
      rewrite nth_error_skipn. f_equal. unfold k in *. lia.
    + replace (upper + i <? 4 * (n + 2) + 4) with false by (unfold k in *; lia).
      rewrite andb_false_r.
      rewrite nth_error_app2 by (rewrite skipn_length, LB; unfold k in *; lia).
      rewrite skipn_length, LB, nth_error_skipn.
      rewrite <- Hd at 1. rewrite nth_error_slice.
      replace (k + (i - (4 - (4 - k))) <? length last) with true by (unfold k in *; lia).
      f_equal. unfold k in *. lia.
  - symmetry. apply nth_error_None. rewrite app_length, !skipn_length, LB. lia.
Qed.

(** ** Capacity depends on the rows only *)

Lemma insert_remove a pg rows index row :
  holds a pg rows -> index <= length rows -> row_ok (length pg) a rows row ->
  exists pg1 pg2, insert_row a pg index row = Ret pg1 /\ remove_row a pg1 index = Ret pg2 /\
    shows a pg2 rows /\ max_insert_row_size a pg2 = max_insert_row_size a pg.
Proof.
  intros H Hi Hr. pose proof (holds_rep _ _ _ H) as R.
  destruct (insert_ok a pg rows index row R Hi Hr) as (pg1 & E1 & L1 & R1).
  set (rows1 := firstn index rows ++ row :: skipn index rows) in *.
  assert (Hlen : index < length rows1).
  { unfold rows1. rewrite app_length, firstn_length. cbn [length]. lia. }
  destruct (remove_ok a pg1 rows1 index R1 Hlen) as (pg2 & E2 & L2 & R2).
  assert (ER : firstn index rows1 ++ skipn (S index) rows1 = rows).
  { apply list_ext. intros i. rewrite nth_error_remove. unfold rows1. rewrite !nth_error_insert by lia.
    destruct (Nat.ltb_spec i index); [reflexivity|].
    replace (S i <? index) with false by lia. replace (S i =? index) with false by lia. f_equal. lia. }
  rewrite ER in R2. exists pg1, pg2. split; [exact E1|]. split; [exact E2|]. split; [apply rep_shows; exact R2|].
  rewrite (rep_max_insert R2), (rep_max_insert R). congruence.
Qed.

(** ** Statements over reachable pages *)

Lemma accepts_iff a pg rows row index :
  holds a pg rows -> row <> [] -> index <= length rows ->
  ((exists pg', append_row a pg row = Ret pg') <-> length row <= capacity (length pg) a rows) /\
  ((exists pg', insert_row a pg index row = Ret pg') <-> length row <= capacity (length pg) a rows).
Proof.
  intros H Hr Hi. apply holds_rep in H. split; split.
  - intros [pg' E]. destruct (Nat.le_gt_cases (length row) (capacity (length pg) a rows)) as [Hc|Hc]; [exact Hc|].
    rewrite (append_too_long _ _ _ _ H Hc) in E. discriminate.
  - intros Hc. destruct (append_ok a pg rows row H) as (pg' & E & _); [split; auto|eauto].
  - intros [pg' E]. destruct (Nat.le_gt_cases (length row) (capacity (length pg) a rows)) as [Hc|Hc]; [exact Hc|].
    rewrite (insert_too_long _ _ _ _ _ H Hc) in E. discriminate.
  - intros Hc. destruct (insert_ok a pg rows index row H Hi) as (pg' & E & _); [split; auto|eauto].
Qed.

Lemma rejects a pg rows :
  holds a pg rows ->
  (forall row, capacity (length pg) a rows < length row -> append_row a pg row = Panic) /\
  (forall index row, capacity (length pg) a rows < length row -> insert_row a pg index row = Panic) /\
  (forall index row, length rows < index -> insert_row a pg index row = Panic) /\
  (forall index, length rows <= index -> remove_row a pg index = Panic).
Proof.
  intros H. apply holds_rep in H. repeat split; intros.
  - eapply append_too_long; eassumption.
  - eapply insert_too_long; eassumption.
  - eapply insert_out_of_range; eassumption.
  - eapply remove_out_of_range; eassumption.
Qed.

Lemma empty_row_full a pg rows :
  holds a pg rows -> ~ slot_fits (length pg) a rows ->
  append_row a pg [] = Panic \/
  exists pg', append_row a pg [] = Ret pg' /\
    let upper := length pg - stored a rows in
    4 * (length rows + 1) <= upper < 4 * (length rows + 2) /\ upper < length pg /\
    get_u32 pg' (4 * (length rows + 1)) = Ret (Z.of_nat upper).
Proof.
  intros H Hf. apply holds_rep in H.
  pose proof (append_empty_full _ _ _ H Hf) as E.
  destruct (4 * (length rows + 2) <=? length pg); [right|left; exact E].
  eexists; split; [exact E|]. exact (append_empty_full_overlap _ _ _ _ H Hf E).
Qed.

Lemma empty_row_corrupts a pg rows last pg' :
  holds a pg (rows ++ [last]) -> ~ slot_fits (length pg) a (rows ++ [last]) ->
  append_row a pg [] = Ret pg' ->
  let upper := length pg - stored a (rows ++ [last]) in
  let k := 4 * (length rows + 3) - upper in
  1 <= k <= 4 /\
  (k <= length last ->
   get_row a pg' (length rows) = Ret (skipn (4 - k) (le_bytes 4 (Z.of_nat upper)) ++ skipn k last)).
Proof. intros H. apply append_empty_full_corrupts. apply holds_rep. exact H. Qed.

Lemma capacity_unsafe : exists a pg rows row pg',
  holds a pg rows /\ length row <= capacity (length pg) a rows /\
  append_row a pg row = Ret pg' /\ ~ shows a pg' (rows ++ [row]).
Proof.
  exists 4. eexists. exists [repeat x2a 8]. exists []. eexists. split; [|split; [|split]].
  - exists (repeat x00 16). eexists. exists [OpAppend (repeat x2a 8)].
    split; [vm_compute; reflexivity|]. split; [|vm_compute; reflexivity].
    econstructor; [split; [vm_compute; repeat constructor|left; discriminate]|]. constructor.
  - vm_compute. repeat constructor.
  - vm_compute. reflexivity.
  - intros [_ H]. specialize (H 0). vm_compute in H. discriminate.
Qed.

Lemma capacity_independent a pg1 pg2 rows :
  holds a pg1 rows -> holds a pg2 rows -> length pg1 = length pg2 ->
  max_insert_row_size a pg1 = max_insert_row_size a pg2.
Proof.
  intros H1 H2 E. apply holds_rep in H1, H2.
  rewrite (rep_max_insert H1), (rep_max_insert H2), E. reflexivity.
Qed.
