(** * Pages found in bytes (C85) *)

From Coq Require Import ZifyBool ZifyNat.
From Verif Require Import Base BaseFacts ListFacts UtilModel PowerSpec PowerFacts UtilSpec UtilProofs NsmModel NsmSpec NsmProofs NsmBytesSpec NsmBytes.
From Verif Require Import PageCheckSpec.
Ltac Zify.zify_post_hook ::= Z.div_mod_to_equations.

Lemma word_get pg k : 4 * k + 4 <= length pg -> get_u32 pg (4 * k) = Ret (Z.of_nat (word pg k)) /\ (Z.of_nat (word pg k) < 2 ^ 32)%Z.
Proof.
  intros H. unfold get_u32, word. replace (4 * k + 4 <=? length pg) with true by lia.
  pose proof (le_val_range (slice pg (4 * k) 4)) as R. rewrite slice_length in R by lia.
  change (256 ^ Z.of_nat 4)%Z with (2 ^ 32)%Z in R. rewrite Z2Nat.id by lia. split; [reflexivity|lia].
Qed.

Lemma word_none pg k : length pg < 4 * k + 4 -> get_u32 pg (4 * k) = Panic.
Proof. intros H. unfold get_u32. replace (4 * k + 4 <=? length pg) with false by lia. reflexivity. Qed.

Lemma slot_parts a v : is_pow2 (Z.of_nat a) = true -> (Z.of_nat a <= 2 ^ 32)%Z -> (Z.of_nat v < 2 ^ 32)%Z ->
  Z.land (Z.of_nat v) (unot 32 (Z.of_nat a - 1)) = Z.of_nat (slot_offset a v) /\
  Z.land (Z.of_nat v) (unot 32 (unot 32 (Z.of_nat a - 1))) = Z.of_nat (slot_padding a v).
Proof.
  intros Ha Hm Hv. pose proof (pow2_pos a Ha) as Hp.
  pose proof (slot_split a (slot_offset a v) (slot_padding a v) Ha Hm) as S0.
  assert (E : slot_offset a v + slot_padding a v = v).
  { unfold slot_offset, slot_padding. pose proof (Nat.div_mod v a ltac:(lia)). lia. }
  rewrite E in S0. apply S0; [exists (v / a); unfold slot_offset; lia| |exact Hv].
  unfold slot_padding. apply Nat.mod_upper_bound. lia.
Qed.

Lemma num_rows_word pg : 4 <= length pg -> num_rows pg = Ret (word pg 0).
Proof.
  intros H. unfold num_rows. destruct (word_get pg 0 ltac:(lia)) as [E _]. cbn [Nat.mul Nat.add] in E. rewrite E. cbn [bind].
  rewrite Nat2Z.id. reflexivity.
Qed.

Lemma num_rows_short pg : length pg < 4 -> num_rows pg = Panic.
Proof. intros H. unfold num_rows, get_u32. replace (0 + 4 <=? length pg) with false by lia. reflexivity. Qed.

Section Read.
Context (a : nat) (pg : list byte).
Context (Ha : is_pow2 (Z.of_nat a) = true) (Hm : (Z.of_nat a <= 2 ^ 32)%Z).

Lemma row_offset_word i : i < word pg 0 -> 4 * (i + 2) <= length pg ->
  row_offset_padding a pg i = Ret (row_start a pg i, row_pad a pg i) /\ aligned_row_offset a pg i = Ret (row_start a pg i).
Proof.
  intros Hi Hl. unfold row_offset_padding, aligned_row_offset. rewrite num_rows_word by lia. cbn [bind].
  replace (i <? word pg 0) with true by lia. unfold get_row_offset. replace (i + 1) with (S i) by lia.
  destruct (word_get pg (S i) ltac:(lia)) as [E R]. rewrite E. cbn [bind]. rewrite mask_value by assumption. cbn [bind].
  destruct (slot_parts a (word pg (S i)) Ha Hm R) as [E1 E2]. rewrite E1, E2, !Nat2Z.id. split; reflexivity.
Qed.

Lemma row_offset_none i : ~ (i < word pg 0 /\ 4 * (i + 2) <= length pg) ->
  row_offset_padding a pg i = Panic /\ aligned_row_offset a pg i = Panic.
Proof.
  intros H. unfold row_offset_padding, aligned_row_offset. destruct (Nat.lt_ge_cases (length pg) 4) as [Hl|Hl].
  - rewrite num_rows_short by exact Hl. split; reflexivity.
  - rewrite num_rows_word by exact Hl. cbn [bind]. destruct (Nat.ltb_spec i (word pg 0)); [|split; reflexivity].
    unfold get_row_offset. replace (i + 1) with (S i) by lia. rewrite word_none by lia. split; reflexivity.
Qed.

Lemma row_top_word i : i < word pg 0 -> 4 * (i + 2) <= length pg ->
  (if 0 <? i then aligned_row_offset a pg (i - 1) else Ret (length pg)) = Ret (row_top a pg i).
Proof.
  intros Hi Hl. destruct i as [|i]; cbn [Nat.ltb Nat.leb]; [reflexivity|].
  replace (S i - 1) with i by lia. destruct (row_offset_word i ltac:(lia) ltac:(lia)) as [_ E]. exact E.
Qed.

Lemma row_there_dec i : {row_there a pg i} + {~ row_there a pg i}.
Proof.
  unfold row_there. destruct (lt_dec i (word pg 0)); [|right; tauto].
  destruct (le_dec (4 * (i + 2)) (length pg)); [|right; tauto].
  destruct (le_dec (row_start a pg i + row_pad a pg i) (row_top a pg i)); [|right; tauto].
  destruct (le_dec (row_top a pg i) (length pg + row_pad a pg i)); [|right; tauto]. left. tauto.
Qed.

Lemma get_row_there i : row_there a pg i ->
  get_row a pg i = Ret (slice pg (row_start a pg i) (row_top a pg i - row_pad a pg i - row_start a pg i)).
Proof.
  intros (H1 & H2 & H3 & H4). unfold get_row. destruct (row_offset_word i H1 H2) as [E _]. rewrite E. cbn [bind].
  rewrite row_top_word by assumption. cbn [bind]. unfold usub. replace (row_pad a pg i <=? row_top a pg i) with true by lia. cbn [bind].
  unfold index_range. replace (row_start a pg i <=? row_top a pg i - row_pad a pg i) with true by lia.
  replace (row_top a pg i - row_pad a pg i <=? length pg) with true by lia. reflexivity.
Qed.

Lemma get_row_not_there i : ~ row_there a pg i -> get_row a pg i = Panic.
Proof.
  intros H. unfold get_row.
  destruct (lt_dec i (word pg 0)) as [H1|H1]; [destruct (le_dec (4 * (i + 2)) (length pg)) as [H2|H2]|].
  2,3: destruct (row_offset_none i ltac:(lia)) as [E _]; rewrite E; reflexivity.
  destruct (row_offset_word i H1 H2) as [E _]. rewrite E. cbn [bind]. rewrite row_top_word by assumption. cbn [bind].
  unfold row_there in H. unfold usub. destruct (Nat.leb_spec (row_pad a pg i) (row_top a pg i)); [|reflexivity]. cbn [bind].
  unfold index_range. destruct (Nat.leb_spec (row_start a pg i) (row_top a pg i - row_pad a pg i)); [|reflexivity].
  destruct (Nat.leb_spec (row_top a pg i - row_pad a pg i) (length pg)); [|reflexivity]. lia.
Qed.
End Read.

Lemma get_row_exact_aux a pg i : is_pow2 (Z.of_nat a) = true -> (Z.of_nat a <= 2 ^ 32)%Z ->
  (row_there a pg i /\
   get_row a pg i = Ret (slice pg (row_start a pg i) (row_top a pg i - row_pad a pg i - row_start a pg i))) \/
  (~ row_there a pg i /\ get_row a pg i = Panic).
Proof.
  intros Ha Hm. destruct (row_there_dec a pg i) as [H|H]; [left|right]; (split; [exact H|]).
  - apply get_row_there; assumption.
  - apply get_row_not_there; assumption.
Qed.

(** ** The form of a page from its bytes *)

Definition cell_at (a : nat) (pg : list byte) (i : nat) : cell :=
  (slice pg (row_start a pg i) (row_top a pg i - row_pad a pg i - row_start a pg i),
   slice pg (row_top a pg i - row_pad a pg i) (row_pad a pg i)).

Lemma slice_app_skip {A} (l : list A) o m : o + m <= length l -> slice l o m ++ skipn (o + m) l = skipn o l.
Proof.
  intros H. unfold slice. rewrite <- (firstn_skipn m (skipn o l)) at 2. f_equal.
  apply list_ext. intros i. rewrite !nth_error_skipn. f_equal. lia.
Qed.

Lemma slice_join {A} (l : list A) o m k : o + m + k <= length l -> slice l o m ++ slice l (o + m) k = slice l o (m + k).
Proof.
  intros H. apply list_ext. intros i. unfold slice. destruct (Nat.lt_ge_cases i m) as [Hi|Hi].
  - rewrite nth_error_app1 by (rewrite firstn_length, skipn_length; lia). rewrite !nth_error_firstn, !nth_error_skipn.
    destruct (Nat.ltb_spec i m), (Nat.ltb_spec i (m + k)); try lia. reflexivity.
  - rewrite nth_error_app2 by (rewrite firstn_length, skipn_length; lia). rewrite firstn_length, skipn_length.
    replace (Nat.min m (length l - o)) with m by lia. rewrite !nth_error_firstn, !nth_error_skipn.
    destruct (Nat.ltb_spec (i - m) k), (Nat.ltb_spec i (m + k)); try lia; [|reflexivity]. f_equal. lia.
Qed.

Lemma top_divide a pg i : Nat.divide a (length pg) -> Nat.divide a (row_top a pg i).
Proof. intros H. destruct i; [exact H|]. exists (word pg (S i) / a). cbn [row_top]. unfold slot_offset. lia. Qed.

Section Form.
Context (a : nat) (pg : list byte) (n : nat).
Context (Ha : 0 < a) (Hall : forall i, i < n -> row_there a pg i).

Lemma top_le i : i <= n -> row_top a pg i <= length pg.
Proof.
  induction i as [|i IH]; intros Hi; [reflexivity|]. destruct (Hall i ltac:(lia)) as (_ & _ & H3 & H4).
  specialize (IH ltac:(lia)). change (row_top a pg (S i)) with (row_start a pg i). lia.
Qed.

Lemma cell_length i : i < n -> length (cell_bytes (cell_at a pg i)) = row_top a pg i - row_start a pg i /\
  length (snd (cell_at a pg i)) = row_pad a pg i /\
  cell_bytes (cell_at a pg i) = slice pg (row_start a pg i) (row_top a pg i - row_start a pg i).
Proof.
  intros Hi. destruct (Hall i Hi) as (_ & _ & H3 & H4). pose proof (top_le i ltac:(lia)) as Ht.
  assert (E : cell_bytes (cell_at a pg i) = slice pg (row_start a pg i) (row_top a pg i - row_start a pg i)).
  { unfold cell_bytes, cell_at. cbn [fst snd].
    replace (row_top a pg i - row_pad a pg i) with (row_start a pg i + (row_top a pg i - row_pad a pg i - row_start a pg i)) at 2 by lia.
    rewrite slice_join by lia. f_equal. lia. }
  split; [rewrite E; apply slice_length; lia|]. split; [cbn [cell_at snd]; apply slice_length; lia|exact E].
Qed.

Lemma cells_data k : k <= n -> data (map (cell_at a pg) (seq 0 k)) = skipn (row_top a pg k) pg /\
  slots (length pg) (map (cell_at a pg) (seq 0 k)) = map (fun i => word pg (S i)) (seq 0 k).
Proof.
  induction k as [|k IH]; intros Hk.
  - cbn [seq map row_top]. rewrite skipn_all. split; reflexivity.
  - destruct (IH ltac:(lia)) as [I1 I2]. rewrite seq_S, !map_app. cbn [map Nat.add].
    destruct (Hall k ltac:(lia)) as (_ & _ & H3 & H4). pose proof (top_le k ltac:(lia)) as Ht.
    destruct (cell_length k ltac:(lia)) as (C1 & C2 & C3). split.
    + rewrite data_app, I1. unfold data at 1. cbn [map rev app concat]. rewrite app_nil_r, C3.
      change (row_top a pg (S k)) with (row_start a pg k).
      replace (row_top a pg k) with (row_start a pg k + (row_top a pg k - row_start a pg k)) at 2 by lia.
      apply slice_app_skip. lia.
    + rewrite slots_app, I2. f_equal. rewrite I1, skipn_length. cbn [slots].
      rewrite C1, C2. f_equal. pose proof (Nat.div_mod (word pg (S k)) a ltac:(lia)) as Hw.
      fold (slot_offset a (word pg (S k))) (slot_padding a (word pg (S k))) in Hw.
      fold (row_start a pg k) (row_pad a pg k) in Hw. lia.
Qed.
End Form.

Lemma word_bytes pg k : 4 * k + 4 <= length pg -> words [word pg k] = slice pg (4 * k) 4.
Proof.
  intros H. rewrite words_one. unfold word.
  pose proof (le_val_range (slice pg (4 * k) 4)) as R. rewrite Z2Nat.id by lia.
  pose proof (le_bytes_le_val (slice pg (4 * k) 4)) as E. rewrite slice_length in E by lia. exact E.
Qed.

Lemma words_prefix pg k : 4 * k <= length pg -> words (map (word pg) (seq 0 k)) = firstn (4 * k) pg.
Proof.
  induction k as [|k IH]; intros H; [reflexivity|].
  rewrite seq_S, map_app, words_app, IH by lia. cbn [map Nat.add]. rewrite word_bytes by lia.
  replace (4 * S k) with (4 * k + 4) by lia. exact (slice_join pg 0 (4 * k) 4 ltac:(lia)).
Qed.

Lemma page_form a pg : page_shape a (length pg) -> (forall i, i < word pg 0 -> row_there a pg i) -> table_clear a pg ->
  exists cells free, page_is a pg cells free.
Proof.
  intros (Hp0 & Hd & Hmin & Hmax) Hall Hc. pose proof (proj1 (pow2_true _) Hp0) as Hp. pose proof (pow2_pos a Hp) as Hpos. set (n := word pg 0) in *.
  exists (map (cell_at a pg) (seq 0 n)), (slice pg (4 * (n + 1)) (row_top a pg n - 4 * (n + 1))).
  unfold table_clear in Hc. fold n in Hc. pose proof (top_le a pg n Hpos Hall n ltac:(lia)) as Ht.
  destruct (cells_data a pg n Hpos Hall n ltac:(lia)) as [D1 D2].
  assert (Hext : extent (map (cell_at a pg) (seq 0 n)) (slice pg (4 * (n + 1)) (row_top a pg n - 4 * (n + 1))) = length pg).
  { unfold extent. rewrite map_length, seq_length, D1, skipn_length, slice_length by lia. lia. }
  split; [exact Hp0|]. split; [exact Hd|]. split; [exact Hmax|]. split.
  - apply Forall_forall. intros c Hin. apply in_map_iff in Hin as (i & <- & Hi). apply in_seq in Hi.
    destruct (cell_length a pg n Hpos Hall i ltac:(lia)) as (C1 & C2 & _). destruct (Hall i ltac:(lia)) as (_ & _ & H3 & H4).
    split.
    + rewrite C2. unfold row_pad, slot_padding. apply Nat.mod_upper_bound. lia.
    + rewrite <- app_length. fold (cell_bytes (cell_at a pg i)). rewrite C1. apply Nat.divide_sub_r; [apply top_divide; exact Hd|].
      exact (top_divide a pg (S i) Hd).
  - unfold page_bytes. rewrite Hext, map_length, seq_length, D1, D2.
    assert (E : n :: map (fun i => word pg (S i)) (seq 0 n) = map (word pg) (seq 0 (S n))).
    { cbn [seq map]. fold n. f_equal. rewrite <- seq_shift, map_map. reflexivity. }
    rewrite E, words_prefix by lia. replace (4 * (n + 1)) with (4 * S n) by lia.
    replace (row_top a pg n) with (4 * S n + (row_top a pg n - 4 * S n)) at 2 by lia.
    rewrite slice_app_skip by lia. symmetry. apply firstn_skipn.
Qed.

Lemma page_form_back a pg cells free : page_is a pg cells free ->
  page_shape a (length pg) /\ (forall i, i < word pg 0 -> row_there a pg i) /\ table_clear a pg.
Proof.
  intros H. pose proof (page_is_rep a pg cells free H) as R. destruct (NsmProofs.rep_shows R) as [E1 E2].
  assert (Hs : page_shape a (length pg)) by (split; [apply pow2_true, R|repeat split; apply R]).
  assert (Hm : (Z.of_nat a <= 2 ^ 32)%Z) by exact (rep_a32 R).
  split; [exact Hs|]. destruct Hs as (Hp & Hd & Hmin & Hmax). apply pow2_true in Hp.
  rewrite num_rows_word in E1 by exact Hmin. injection E1 as E1. split.
  - intros i Hi. destruct (get_row_exact_aux a pg i Hp Hm) as [[T _]|[_ G]]; [exact T|]. rewrite E2 in G.
    destruct (nth_error (map fst cells) i) eqn:En; [discriminate|]. apply nth_error_None in En. lia.
  - unfold table_clear. rewrite E1. pose proof (rep_space _ _ _ R) as Hsp.
    destruct (Nat.eq_dec (length (map fst cells)) 0) as [E0|E0]; [rewrite E0 in *; cbn [row_top]; lia|].
    destruct (length (map fst cells)) as [|k] eqn:En; [lia|].
    pose proof (rep_aligned R k ltac:(lia)) as Hal. destruct (row_offset_word a pg Hp Hm k ltac:(lia) ltac:(lia)) as [_ Hal2].
    change (row_top a pg (S k)) with (row_start a pg k). assert (E : row_start a pg k = base a (length pg) (map fst cells) (S k)) by congruence.
    rewrite E, <- En, base_all. lia.
Qed.

(** ** Every page of this form has a history *)

Lemma append_all a c2 : forall c1 w free, 0 < a -> Forall (padded a) c2 -> length w = 4 * length c2 ->
  fold_left (bytes_op a) (map OpAppend (map fst c2)) (c1, w ++ free ++ data c2) = (c1 ++ c2, free).
Proof.
  induction c2 as [|c c2 IH]; intros c1 w free Ha F Hw.
  - cbn [length] in Hw. destruct w; [|cbn in Hw; lia]. cbn [map fold_left app]. unfold data. cbn. rewrite !app_nil_r. reflexivity.
  - inversion F as [|? ? F1 F2]; subst. cbn [map fold_left bytes_op fst]. rewrite data_cons. cbn [length] in Hw.
    rewrite <- (firstn_skipn 4 w).
    replace ((firstn 4 w ++ skipn 4 w) ++ free ++ data c2 ++ cell_bytes c)
      with (firstn 4 w ++ (skipn 4 w ++ free ++ data c2) ++ cell_bytes c) by (rewrite <- !app_assoc; reflexivity).
    pose proof (put_row_split a c1 [] (firstn 4 w) (skipn 4 w ++ free ++ data c2) (cell_bytes c) (fst c)) as P.
    rewrite (app_nil_r c1) in P. rewrite P; [|rewrite firstn_length; lia|apply padded_align; assumption].
    change (data []) with (@nil byte). rewrite app_nil_r. change (skipn (length (@nil byte)) (cell_bytes c)) with (cell_bytes c).
    assert (E : skipn (length (fst c)) (cell_bytes c) = snd c).
    { unfold cell_bytes. rewrite skipn_app, skipn_all, Nat.sub_diag. reflexivity. }
    rewrite E, <- surjective_pairing.
    rewrite (IH (c1 ++ [c]) (skipn 4 w) free Ha F2) by (rewrite skipn_length; lia).
    rewrite <- app_assoc. reflexivity.
Qed.

Lemma stored_app a r1 r2 : stored a (r1 ++ r2) = stored a r1 + stored a r2.
Proof. unfold stored. rewrite map_app, list_sum_app. reflexivity. Qed.

Lemma stored_div a rows : Nat.divide a (stored a rows).
Proof.
  induction rows as [|r rows IH]; [exists 0; reflexivity|]. rewrite stored_cons.
  apply Nat.divide_add_r; [apply align_up_div|exact IH].
Qed.

Lemma append_legal len a r2 : forall r1, 0 < a -> Nat.divide a len ->
  4 * (length r1 + length r2 + 1) + stored a r1 + stored a r2 <= len ->
  legal len a r1 (map OpAppend r2) (r1 ++ r2).
Proof.
  induction r2 as [|r r2 IH]; intros r1 Ha Hd H; cbn [map].
  - rewrite app_nil_r. constructor.
  - cbn [length] in H. rewrite stored_cons in H. econstructor.
    + assert (Hup : align_up (4 * (length r1 + 2)) a + stored a r1 + align_up (length r) a <= len).
      { pose proof (align_up_least (4 * (length r1 + 2)) a (len - (stored a r1 + align_up (length r) a)) Ha) as L0.
        assert (D : Nat.divide a (len - (stored a r1 + align_up (length r) a))).
        { apply Nat.divide_sub_r; [exact Hd|]. apply Nat.divide_add_r; [apply stored_div|apply align_up_div]. }
        specialize (L0 D ltac:(lia)). lia. }
      pose proof (align_up_ge (length r) a Ha). split.
      * unfold capacity. lia.
      * right. unfold slot_fits. lia.
    + cbn [spec_op]. specialize (IH (r1 ++ [r]) Ha Hd). rewrite <- app_assoc in IH. cbn [app] in IH. apply IH.
      rewrite app_length, stored_app. cbn [length]. rewrite stored_cons. change (stored a []) with 0. lia.
Qed.

Lemma form_history a pg cells free : page_is a pg cells free ->
  exists pg0, initialize_page a pg = Ret pg0 /\
    legal (length pg) a [] (map OpAppend (map fst cells)) (map fst cells) /\
    foldM (apply_op a) (map OpAppend (map fst cells)) pg0 = Ret pg.
Proof.
  intros H. pose proof (page_is_rep a pg cells free H) as R. pose proof H as (Hp & Hd & Hmax & F & E). apply pow2_true in Hp.
  pose proof (pow2_pos a Hp) as Hpos. pose proof (rep_min _ _ _ R) as Hmin.
  assert (HL : legal (length pg) a [] (map OpAppend (map fst cells)) (map fst cells)).
  { apply (append_legal (length pg) a (map fst cells) []); [exact Hpos|exact Hd|].
    pose proof (rep_space _ _ _ R). change (stored a []) with 0. cbn [length]. lia. }
  assert (HI : exists pg0, initialize_page a pg = Ret pg0).
  { unfold initialize_page. replace (4 <=? length pg) with true by lia.
    replace (Z.of_nat (length pg) <=? 2 ^ 32 - 1)%Z with true by lia.
    rewrite (rep_align R (length pg)) by lia. cbn [bind].
    rewrite align_up_id by assumption. rewrite Nat.eqb_refl. rewrite set_u32_ok by lia. eexists. reflexivity. }
  destruct HI as [pg0 HI]. exists pg0. split; [exact HI|]. split; [exact HL|].
  pose proof (bytes_history a pg pg0 _ _ HI HL) as B.
  assert (E4 : skipn 4 pg = words (slots (extent cells free) cells) ++ free ++ data cells).
  { rewrite E at 1. unfold page_bytes. rewrite words_cons, <- app_assoc, words_one.
    rewrite skipn_app, le_bytes_length, Nat.sub_diag, skipn_all2 by (rewrite le_bytes_length; lia). reflexivity. }
  rewrite E4, append_all in B; [|exact Hpos|exact F|rewrite words_length, slots_length; reflexivity].
  cbn [app] in B. destruct B as [B _]. rewrite B, <- E. reflexivity.
Qed.

Lemma form_holds a pg cells free : page_is a pg cells free -> holds a pg (map fst cells).
Proof.
  intros H. destruct (form_history a pg cells free H) as (pg0 & H1 & H2 & H3). exists pg, pg0, (map OpAppend (map fst cells)). auto.
Qed.

Lemma found_page a pg : page_shape a (length pg) ->
  ((exists rows, holds a pg rows) <-> (forall i, i < word pg 0 -> row_there a pg i) /\ table_clear a pg).
Proof.
  intros Hs. split.
  - intros [rows Hr]. destruct (holds_bytes a pg rows Hr) as (cells & free & Hc & _).
    apply (page_form_back a pg cells free Hc).
  - intros [H1 H2]. destruct (page_form a pg Hs H1 H2) as (cells & free & Hc).
    exists (map fst cells). apply (form_holds a pg cells free Hc).
Qed.

Lemma holds_shape a pg rows : holds a pg rows -> page_shape a (length pg).
Proof. intros Hr. destruct (holds_bytes a pg rows Hr) as (cells & free & Hc & _). apply (page_form_back a pg cells free Hc). Qed.

Lemma shape_small a len : page_shape a len -> 0 < len -> (Z.of_nat a <= 2 ^ 32)%Z.
Proof. intros (Hp & [q Hq] & Hmin & Hmax) Hl. subst len. destruct q; nia. Qed.

Lemma there_row a pg i : page_shape a (length pg) ->
  (row_there a pg i <-> exists row, get_row a pg i = Ret row).
Proof.
  intros Hs. pose proof (shape_small a _ Hs) as Hm. destruct Hs as (Hp & _ & Hmin & _). apply pow2_true in Hp. specialize (Hm ltac:(lia)).
  destruct (get_row_exact_aux a pg i Hp Hm) as [[T G]|[T G]]; split; intros H; try contradiction; try assumption.
  - eexists. exact G.
  - destruct H as [row H]. congruence.
Qed.

(** ** No undefined behaviour *)

Lemma safe_bind {A B} (x : outcome A) (f : A -> outcome B) :
  x <> Undef -> (forall v, x = Ret v -> f v <> Undef) -> bind x f <> Undef.
Proof. destruct x; cbn [bind]; intros H1 H2; [apply H2; reflexivity|discriminate|congruence]. Qed.

Lemma safe_check {B} b (k : outcome B) : (b = true -> k <> Undef) -> (if b then k else Panic) <> Undef.
Proof. destruct b; intros H; [apply H; reflexivity|discriminate]. Qed.

Lemma safe_usub x y : usub x y <> Undef.
Proof. unfold usub. destruct (_ <=? _); discriminate. Qed.

Lemma safe_get pg o : get_u32 pg o <> Undef.
Proof. unfold get_u32. destruct (_ <=? _); discriminate. Qed.

Lemma safe_set pg o v : set_u32 pg o v <> Undef.
Proof. unfold set_u32. destruct (_ <=? _); discriminate. Qed.

Lemma set_keeps pg o v pg' : set_u32 pg o v = Ret pg' -> length pg' = length pg.
Proof.
  unfold set_u32. destruct (Nat.leb_spec (o + 4) (length pg)); [|discriminate]. intros E.
  assert (E' : write pg o (le_bytes 4 v) = pg') by congruence. rewrite <- E'.
  apply write_length. rewrite le_bytes_length. lia.
Qed.

Lemma safe_num pg : num_rows pg <> Undef.
Proof. apply safe_bind; [apply safe_get|intros; discriminate]. Qed.

Lemma safe_mask a : alignment_mask a <> Undef.
Proof. apply safe_bind; [apply safe_usub|intros; discriminate]. Qed.

Lemma safe_aligned a pg i : aligned_row_offset a pg i <> Undef.
Proof.
  apply safe_bind; [apply safe_num|]. intros n _. apply safe_check. intros _.
  apply safe_bind; [apply safe_get|]. intros v _. apply safe_bind; [apply safe_mask|]. intros; discriminate.
Qed.

Lemma safe_top a pg (b : bool) i : (if b then aligned_row_offset a pg i else Ret (length pg)) <> Undef.
Proof. destruct b; [apply safe_aligned|discriminate]. Qed.

Lemma safe_align v a : align_nat v a <> Undef.
Proof.
  unfold align_nat, align. apply safe_bind; [|intros; discriminate]. apply safe_check. intros _.
  apply safe_bind; [unfold wadd; destruct (_ <? _)%Z; discriminate|]. intros x _.
  apply safe_bind; [unfold wsub; destruct (_ <=? _)%Z; discriminate|]. intros y _.
  apply safe_bind; [unfold wsub; destruct (_ <=? _)%Z; discriminate|]. intros; discriminate.
Qed.

Lemma safe_copy_range {A} (l : list A) x y new : copy_range l x y new <> Undef.
Proof. unfold copy_range. destruct (_ && _); discriminate. Qed.

Lemma safe_max a pg : max_insert_row_size a pg <> Undef.
Proof.
  apply safe_bind; [apply safe_num|]. intros n _. apply safe_bind; [apply safe_align|]. intros l _.
  apply safe_bind; [apply safe_top|]. intros u _. destruct (_ <=? _); discriminate.
Qed.

Lemma safe_append a pg row : append_row a pg row <> Undef.
Proof.
  apply safe_bind; [apply safe_max|]. intros mx _. apply safe_check. intros _.
  apply safe_bind; [apply safe_num|]. intros n _. apply safe_bind; [apply safe_align|]. intros d _.
  apply safe_bind; [apply safe_top|]. intros u _. apply safe_bind; [apply safe_usub|]. intros o _.
  apply safe_bind; [apply safe_usub|]. intros pd _. apply safe_bind; [apply safe_copy_range|]. intros pg1 _.
  apply safe_bind; [apply safe_set|]. intros pg2 _. apply safe_set.
Qed.

Lemma safe_foldM {A B} (f : B -> A -> outcome B) l : (forall b x, f b x <> Undef) -> forall b, foldM f l b <> Undef.
Proof.
  intros H. induction l as [|x l IH]; intros b; cbn [foldM]; [discriminate|]. apply safe_bind; [apply H|]. intros b' _. apply IH.
Qed.

Lemma foldM_keeps {A} (f : list byte -> A -> outcome (list byte)) l : (forall b x b', f b x = Ret b' -> length b' = length b) ->
  forall b b', foldM f l b = Ret b' -> length b' = length b.
Proof.
  intros H. induction l as [|x l IH]; intros b b' E; cbn [foldM] in E; [injection E as <-; reflexivity|].
  inv_bind E. apply IH in E. apply H in Ha. congruence.
Qed.

Lemma down_keeps delta pg i pg' : shift_slot_down delta pg i = Ret pg' -> length pg' = length pg.
Proof. intros H. unfold shift_slot_down in H. inv_bind H. inv_bind H. apply set_keeps in H. exact H. Qed.

Lemma usub_ret x y v : usub x y = Ret v -> y <= x /\ v = x - y.
Proof. unfold usub. destruct (Nat.leb_spec y x); [|discriminate]. intros [= <-]. split; [assumption|reflexivity]. Qed.

Section Safe.
Context (a : nat) (pg : list byte) (n : nat).
Context (Hp : is_pow2 (Z.of_nat a) = true) (Hm : (Z.of_nat a <= 2 ^ 32)%Z) (Hmin : 4 <= length pg).
Context (Hn : word pg 0 = n) (Hall : forall i, i < n -> row_there a pg i).

Lemma safe_upper i v : (if 0 <? i then aligned_row_offset a pg (i - 1) else Ret (length pg)) = Ret v ->
  v <= length pg.
Proof.
  intros H. destruct (Nat.ltb_spec 0 i); [|injection H as <-; lia].
  destruct (Nat.lt_ge_cases (i - 1) n) as [Hi|Hi].
  - destruct (Hall (i - 1) Hi) as (H1 & H2 & _). destruct (row_offset_word a pg Hp Hm (i - 1) H1 H2) as [_ E].
    rewrite E in H. injection H as <-. change (row_start a pg (i - 1)) with (row_top a pg (S (i - 1))).
    apply (top_le a pg n (pow2_pos a Hp) Hall). lia.
  - destruct (row_offset_none a pg (i - 1) ltac:(lia)) as [_ E]. congruence.
Qed.

Lemma safe_remove i : remove_row a pg i <> Undef.
Proof.
  apply safe_bind; [apply safe_num|]. intros n' En. rewrite num_rows_word in En by exact Hmin. injection En as <-.
  apply safe_check. intros Hi. destruct (Nat.ltb_spec i (word pg 0 - 1)); [|apply safe_set].
  apply safe_bind; [apply safe_aligned|]. intros o Eo. apply safe_bind; [apply safe_top|]. intros t Et.
  apply safe_bind; [apply safe_aligned|]. intros l El. apply safe_bind; [apply safe_usub|]. intros d Ed.
  apply safe_bind.
  { apply safe_foldM. intros b x. apply safe_bind; [apply safe_get|]. intros v _. apply safe_bind; [apply safe_usub|].
    intros w _. apply safe_set. }
  intros pg1 E1. apply safe_bind; [apply safe_usub|]. intros len Elen.
  apply (foldM_keeps _ _ (down_keeps d)) in E1. apply usub_ret in Ed as [Ed1 Ed2]. apply usub_ret in Elen as [El1 El2].
  pose proof (safe_upper i t Et) as Ht. apply safe_bind; [|intros pg2 _; apply safe_set].
  unfold raw_copy. rewrite E1. replace (l <=? length pg) with true by lia. replace (l + d <=? length pg) with true by lia.
  replace (l + len <=? length pg) with true by lia. replace (l + d + len <=? length pg) with true by lia. discriminate.
Qed.

Lemma safe_insert i row : insert_row a pg i row <> Undef.
Proof.
  apply safe_bind; [apply safe_max|]. intros mx _. apply safe_check. intros _.
  apply safe_bind; [apply safe_num|]. intros n' En. destruct (i =? n'); [apply safe_append|].
  apply safe_bind; [apply safe_align|]. intros d _. apply safe_bind; [apply safe_usub|]. intros k _.
  apply safe_bind; [apply safe_aligned|]. intros l El. apply safe_bind; [apply safe_top|]. intros t Et.
  apply safe_bind; [apply safe_usub|]. intros dst Ed. apply safe_bind; [apply safe_usub|]. intros len Elen.
  apply usub_ret in Ed as [Ed1 Ed2]. apply usub_ret in Elen as [El1 El2]. pose proof (safe_upper i t Et) as Ht.
  apply safe_bind.
  { unfold raw_copy. replace (l <=? length pg) with true by lia. replace (dst <=? length pg) with true by lia.
    replace (l + len <=? length pg) with true by lia. replace (dst + len <=? length pg) with true by lia. discriminate. }
  intros pg1 _. apply safe_bind.
  { apply safe_foldM. intros b x. apply safe_bind; [apply safe_get|]. intros v _. apply safe_bind; [apply safe_usub|].
    intros w _. apply safe_set. }
  intros pg2 _. apply safe_bind; [apply safe_usub|]. intros pd _. apply safe_bind; [apply safe_usub|]. intros o _.
  apply safe_bind; [apply safe_copy_range|]. intros pg3 _. apply safe_bind; [apply safe_set|]. intros pg4 _. apply safe_set.
Qed.
End Safe.

Lemma readable_safe a pg n op : page_shape a (length pg) -> num_rows pg = Ret n ->
  (forall i, i < n -> exists row, get_row a pg i = Ret row) -> apply_op a pg op <> Undef.
Proof.
  intros Hs Hn H. pose proof (shape_small a _ Hs) as Hm. pose proof Hs as (Hp & _ & Hmin & _). apply pow2_true in Hp. specialize (Hm ltac:(lia)).
  rewrite num_rows_word in Hn by exact Hmin. injection Hn as Hn.
  assert (Hall : forall i, i < n -> row_there a pg i) by (intros i Hi; apply there_row; [exact Hs|apply H; exact Hi]).
  destruct op as [row|i row|i]; cbn [apply_op].
  - apply safe_append.
  - eapply safe_insert; eassumption.
  - eapply safe_remove; eassumption.
Qed.
