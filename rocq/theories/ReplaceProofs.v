(** * Replacing a row of a page: proofs *)

From Verif Require Import Base BaseFacts UtilSpec UtilProofs PowerSpec PowerFacts NsmModel NsmSpec NsmProofs NsmBytesSpec NsmBytes ReplaceSpec.

(** A row that is removed leaves room for any row that is not longer than it was with its padding. *)
Lemma replaced_ok a pg rows i row row' : holds a pg rows -> nth_error rows i = Some row ->
  length row' <= align_up (length row) a ->
  op_ok (length pg) a rows (OpRemove i) /\ op_ok (length pg) a (spec_op rows (OpRemove i)) (OpInsert i row').
Proof.
  intros H Hi Hl. pose proof (holds_rep _ _ _ H) as R. pose proof (rep_pos R) as Ha.
  assert (Hlt : i < length rows) by (apply nth_error_Some; congruence).
  split; [exact Hlt|].
  pose proof (nth_split_eq _ _ _ Hi) as E.
  assert (Hn : length (firstn i rows ++ skipn (S i) rows) = length rows - 1).
  { rewrite app_length, firstn_length, skipn_length. lia. }
  assert (Hst : stored a rows = stored a (firstn i rows ++ skipn (S i) rows) + align_up (length row) a).
  { rewrite E at 1. rewrite !stored_app, stored_cons. lia. }
  pose proof (rep_space _ _ _ R) as Hroom. pose proof (rep_div _ _ _ R) as Hd.
  cbn [op_ok spec_op]. split; [rewrite Hn; lia|].
  unfold row_ok, capacity, slot_fits. rewrite Hn.
  assert (Hup : align_up (4 * (length rows - 1 + 2)) a <= length pg - stored a rows).
  { apply align_up_least; [exact Ha| |lia]. apply divide_sub; [exact Hd|apply stored_divide]. }
  split; [lia|]. right. lia.
Qed.

Lemma replaced_holds a pg rows i row row' : holds a pg rows -> nth_error rows i = Some row ->
  length row' <= align_up (length row) a ->
  exists pg1 pg2, remove_row a pg i = Ret pg1 /\ insert_row a pg1 i row' = Ret pg2 /\
    length pg1 = length pg /\ length pg2 = length pg /\ holds a pg2 (exchanged rows i row').
Proof.
  intros H Hi Hl. destruct (replaced_ok a pg rows i row row' H Hi Hl) as [O1 O2].
  assert (Hlt : i < length rows) by (apply nth_error_Some; congruence).
  destruct (holds_step a pg rows _ H O1) as (pg1 & E1 & L1 & H1). rewrite <- L1 in O2.
  destruct (holds_step a pg1 _ _ H1 O2) as (pg2 & E2 & L2 & H2).
  exists pg1, pg2. repeat (split; [assumption || congruence|]).
  cbn [spec_op] in H2. unfold exchanged.
  replace (firstn i (firstn i rows ++ skipn (S i) rows)) with (firstn i rows) in H2
    by (rewrite firstn_app, firstn_firstn, Nat.min_id, firstn_length, Nat.min_l, Nat.sub_diag by lia; cbn [firstn]; rewrite app_nil_r; reflexivity).
  replace (skipn i (firstn i rows ++ skipn (S i) rows)) with (skipn (S i) rows) in H2; [exact H2|].
  rewrite skipn_app, firstn_length, Nat.min_l, Nat.sub_diag by lia.
  rewrite (skipn_all2 (firstn i rows)) by (rewrite firstn_length; lia). reflexivity.
Qed.

(** The bytes. *)
Lemma replaced_cells a pg c1 c c2 free row' :
  page_is a pg (c1 ++ c :: c2) free -> align_up (length row') a = align_up (length (fst c)) a ->
  row_ok (length pg) a (map fst (c1 ++ c2)) row' ->
  exists pg1 pad', remove_row a pg (length c1) = Ret pg1 /\
    insert_row a pg1 (length c1) row' = Ret (page_bytes (c1 ++ (row', pad') :: c2) free) /\
    padded a (row', pad') /\
    (c2 = [] -> pad' = skipn (length row') (cell_bytes c)).
Proof.
  intros Hp Hal Hok.
  assert (Ha : 0 < a) by (apply pow2_pos, pow2_true, Hp).
  assert (Hc : padded a c).
  { destruct Hp as (_ & _ & _ & F & _). rewrite Forall_forall in F. apply F, in_or_app. right. left. reflexivity. }
  pose proof (padded_align a c Ha Hc) as Hd.
  pose proof (take_step a pg _ free (length c1) Hp ltac:(rewrite app_length; cbn [length]; lia)) as T.
  rewrite take_row_split in T.
  set (x := last _ 0) in T. set (t := firstn (length (cell_bytes c)) (data c2 ++ cell_bytes c)) in T.
  destruct T as [T1 T2].
  assert (Ht : length t = align_up (length row') a).
  { unfold t. rewrite firstn_length, app_length. lia. }
  assert (Hlen : length (page_bytes (c1 ++ c2) (words [x] ++ free ++ t)) = length pg).
  { destruct Hp as (_ & _ & _ & _ & ->). rewrite !extent_length. unfold extent.
    rewrite !app_length, words_length, !data_app, data_cons, !app_length, Ht, Hal, <- Hd. cbn [length]. lia. }
  rewrite <- Hlen in Hok.
  pose proof (put_step a _ _ _ (length c1) row' T2 ltac:(rewrite app_length; lia) Hok) as P.
  rewrite (put_row_split a c1 c2 (words [x]) free t row') in P; [|rewrite words_length; reflexivity|exact Ht].
  destruct P as (P1 & _ & P2).
  eexists _, _. split; [exact T1|]. split; [exact P1|]. split.
  - destruct P2 as (_ & _ & _ & F & _). rewrite Forall_forall in F. apply F, in_or_app. right. left. reflexivity.
  - intros ->. unfold t. cbn [data map rev concat length skipn]. rewrite app_nil_r. cbn [app].
    rewrite firstn_all. reflexivity.
Qed.

Lemma unchanged_mid (p x x' q : list byte) o n : length p = o -> length x = n -> length x' = n ->
  unchanged_but [(o, n)] (p ++ x ++ q) (p ++ x' ++ q).
Proof.
  intros Hp Hx Hx'. split; [rewrite !app_length; lia|].
  intros j F. inversion F as [|? ? Hj _]; subst. cbn [fst snd] in Hj.
  destruct Hj as [Hj|Hj].
  - rewrite !nth_error_app1 by lia. reflexivity.
  - rewrite !(nth_error_app2 p) by lia. rewrite !nth_error_app2 by lia. f_equal. lia.
Qed.

Lemma unchanged_trans r1 r2 (l1 l2 l3 : list byte) :
  unchanged_but r1 l1 l2 -> unchanged_but r2 l2 l3 -> unchanged_but (r1 ++ r2) l1 l3.
Proof.
  intros [A1 B1] [A2 B2]. split; [congruence|]. intros j F. apply Forall_app in F. destruct F as [F1 F2].
  rewrite B2, B1 by assumption. reflexivity.
Qed.

Lemma replaced_bytes a pg rows i row row' : holds a pg rows -> nth_error rows i = Some row ->
  align_up (length row') a = align_up (length row) a ->
  exists pg1 pg2 o, remove_row a pg i = Ret pg1 /\ insert_row a pg1 i row' = Ret pg2 /\
    aligned_row_offset a pg i = Ret o /\ o + align_up (length row) a <= length pg /\
    slice pg o (length row) = row /\ slice pg2 o (length row') = row' /\
    unchanged_but [(4 * (i + 1), 4); (o, align_up (length row) a)] pg pg2 /\
    (length row' = length row -> unchanged_but [(o, align_up (length row) a)] pg pg2 /\
       (S i = length rows \/ Nat.divide a (length row) -> pg2 = write pg o row')).
Proof.
  intros H Hi Hal.
  pose proof (holds_rep _ _ _ H) as R. pose proof (rep_pos R) as Ha.
  assert (Hlt : i < length rows) by (apply nth_error_Some; congruence).
  assert (Hle : length row' <= align_up (length row) a) by (rewrite <- Hal; apply align_up_ge, Ha).
  destruct (replaced_ok a pg rows i row row' H Hi Hle) as [_ [_ O2]]. cbn [spec_op] in O2.
  destruct (holds_bytes a pg rows H) as (cells & free & Hp & Hm).
  destruct (nth_error cells i) as [c|] eqn:Ec.
  2:{ rewrite <- Hm, nth_error_map, Ec in Hi. discriminate Hi. }
  assert (Hcr : fst c = row) by (rewrite <- Hm, nth_error_map, Ec in Hi; injection Hi as Hi; exact Hi).
  assert (Hrows : firstn i rows ++ skipn (S i) rows = map fst (firstn i cells ++ skipn (S i) cells))
    by (rewrite <- Hm, map_app, firstn_map, skipn_map; reflexivity).
  rewrite Hrows in O2.
  assert (Lc : i < length cells) by (apply nth_error_Some; congruence).
  assert (Ll : length cells = length rows) by (rewrite <- Hm, map_length; reflexivity).
  pose proof (nth_split_eq _ _ _ Ec) as E.
  assert (Hp' : page_is a pg (firstn i cells ++ c :: skipn (S i) cells) free) by (rewrite <- E; exact Hp).
  rewrite <- Hcr in Hal.
  destruct (replaced_cells a pg _ c _ free row' Hp' Hal O2) as (pg1 & pad' & P1 & P2 & P3 & P4).
  assert (Ei : length (firstn i cells) = i) by (rewrite firstn_length; lia).
  rewrite Ei in P1, P2.
  assert (Hc : padded a c).
  { destruct Hp as (_ & _ & _ & F & _). rewrite Forall_forall in F. apply F, (nth_error_In _ _ Ec). }
  pose proof (padded_align a c Ha Hc) as Dc. pose proof (padded_align a _ Ha P3) as Dc'. cbn [fst] in Dc'.
  set (cells' := firstn i cells ++ (row', pad') :: skipn (S i) cells) in *.
  assert (Ec' : nth_error cells' i = Some (row', pad')).
  { unfold cells'. rewrite nth_error_app2, Ei, Nat.sub_diag by lia. reflexivity. }
  assert (F' : firstn i cells' = firstn i cells).
  { unfold cells'. rewrite firstn_app, Ei, Nat.sub_diag, firstn_firstn, Nat.min_id. cbn [firstn]. apply app_nil_r. }
  assert (G' : skipn (S i) cells' = skipn (S i) cells).
  { unfold cells'. change ((row', pad') :: skipn (S i) cells) with ([(row', pad')] ++ skipn (S i) cells).
    rewrite app_assoc, skipn_app. rewrite skipn_all2 by (rewrite app_length, Ei; cbn; lia).
    rewrite app_length, Ei. cbn [length]. replace (S i - (i + 1)) with 0 by lia. reflexivity. }
  assert (L' : length cells' = length cells).
  { unfold cells'. rewrite E at 3. rewrite !app_length. reflexivity. }
  assert (D' : length (data cells') = length (data cells)).
  { unfold cells'. rewrite E at 3. rewrite !data_app, !data_cons, !app_length. lia. }
  assert (X' : extent cells' free = extent cells free) by (unfold extent; rewrite L', D'; reflexivity).
  assert (FS : length (data (firstn (S i) cells)) = length (data (firstn i cells)) + length (cell_bytes c)).
  { rewrite (firstn_S_nth cells i c Ec), data_app, app_length. replace (length (data [c])) with (length (cell_bytes c)); [lia|].
    unfold data. cbn. rewrite app_nil_r. reflexivity. }
  assert (FS' : length (data (firstn (S i) cells')) = length (data (firstn (S i) cells))).
  { rewrite (firstn_S_nth cells' i _ Ec'), F', data_app, app_length, FS.
    replace (length (data [(row', pad')])) with (length (cell_bytes (row', pad'))); [lia|].
    unfold data. cbn [map rev concat app]. rewrite app_nil_r. reflexivity. }
  pose proof (page_at cells free i c Ec) as A1. pose proof (page_at cells' free i _ Ec') as A2. cbv zeta in A1, A2.
  rewrite L', X', FS', F', G' in A2. cbn [snd] in A2.
  assert (Epg : pg = page_bytes cells free) by apply Hp.
  assert (HL : length pg = extent cells free) by (rewrite Epg; apply extent_length).
  set (here := extent cells free - length (data (firstn (S i) cells))) in *.
  set (w1 := words (length cells :: slots (extent cells free) (firstn i cells))) in *.
  set (w2 := words (slots here (skipn (S i) cells))) in *.
  assert (Lw1 : length w1 = 4 * (i + 1)).
  { unfold w1. rewrite words_length. cbn [length]. rewrite slots_length, Ei. lia. }
  assert (Hpre : forall k, length (w1 ++ words [k] ++ w2 ++ free ++ data (skipn (S i) cells)) = here).
  { intros k. assert (Q : length pg = length w1 + 4 + length w2 + length free + length (data (skipn (S i) cells)) +
                    length (cell_bytes c) + length (data (firstn i cells))).
    { rewrite Epg, A1. rewrite !app_length, words_length. cbn [length]. lia. }
    rewrite !app_length, words_length. cbn [length]. unfold here. rewrite <- HL, FS. lia. }
  assert (Rot : forall k y, w1 ++ words [k] ++ w2 ++ free ++ data (skipn (S i) cells) ++ y =
    (w1 ++ words [k] ++ w2 ++ free ++ data (skipn (S i) cells)) ++ y) by (intros; rewrite <- !app_assoc; reflexivity).
  set (pre k := w1 ++ words [k] ++ w2 ++ free ++ data (skipn (S i) cells)) in *.
  rewrite Rot in A1, A2. rewrite Hcr in *. clear Rot.
  change (page_bytes cells free = pre (here + length (snd c)) ++ cell_bytes c ++ data (firstn i cells)) in A1.
  change (page_bytes cells' free = pre (here + length pad') ++ cell_bytes (row', pad') ++ data (firstn i cells)) in A2.
  assert (Lpre : forall k, length (pre k) = here) by exact Hpre. clear Hpre.
  assert (Hoff : aligned_row_offset a pg i = Ret here).
  { rewrite (rep_aligned R i Hlt). f_equal. unfold base, here. rewrite HL. f_equal.
    rewrite <- Hm, firstn_map. symmetry. apply data_stored; [exact Ha|].
    destruct Hp as (_ & _ & _ & F & _). rewrite <- (firstn_skipn (S i) cells) in F. apply Forall_app in F. apply F. }
  assert (Hin : here + align_up (length row) a <= length pg).
  { rewrite <- Dc, HL. unfold here. rewrite FS.
    assert (length (data (firstn i cells)) + length (cell_bytes c) <= extent cells free); [|lia].
    rewrite <- HL, Epg, A1. rewrite !app_length. lia. }
  exists pg1, (page_bytes cells' free), here. rewrite A2.
  split; [exact P1|]. split; [rewrite A2 in P2; exact P2|]. split; [exact Hoff|]. split; [exact Hin|].
  rewrite Epg, A1.
  split. { unfold cell_bytes. rewrite <- (app_assoc (fst c)), Hcr. apply slice_mid; [symmetry; apply Lpre|reflexivity]. }
  split. { unfold cell_bytes at 1. cbn [fst snd]. rewrite <- (app_assoc row'). apply slice_mid; [symmetry; apply Lpre|reflexivity]. }
  assert (U : forall k, unchanged_but [(here, align_up (length row) a)] (pre k ++ cell_bytes c ++ data (firstn i cells))
                (pre k ++ cell_bytes (row', pad') ++ data (firstn i cells))).
  { intros k. apply unchanged_mid; [apply Lpre|exact Dc|congruence]. }
  split.
  - apply (unchanged_trans [_] [_] _ (pre (here + length pad') ++ cell_bytes c ++ data (firstn i cells))); [|apply U].
    unfold pre. rewrite <- !app_assoc. apply unchanged_mid; [exact Lw1|rewrite words_length; reflexivity..].
  - intros El. assert (Ep : length pad' = length (snd c)).
    { pose proof Dc as Y1. pose proof Dc' as Y2. unfold cell_bytes in Y1, Y2. rewrite app_length in Y1, Y2. cbn [fst snd] in Y2.
      rewrite Hcr in Y1. lia. }
    rewrite Ep. split; [apply U|]. intros Hcase.
    assert (Ec2 : cell_bytes (row', pad') = row' ++ snd c).
    { unfold cell_bytes. cbn [fst snd]. f_equal. destruct Hcase as [Hlast|Hdiv].
      - rewrite P4 by (apply skipn_all2; lia). unfold cell_bytes.
        rewrite Hcr, El, skipn_app, skipn_all, Nat.sub_diag. reflexivity.
      - assert (Z0 : length (snd c) = 0).
        { destruct Hc as [Hc1 Hc2]. rewrite Hcr in Hc2. pose proof (Nat.divide_add_cancel_r _ _ _ Hdiv Hc2) as Hq.
          destruct (Nat.eq_dec (length (snd c)) 0) as [Hz|Hz]; [exact Hz|].
          pose proof (Nat.divide_pos_le a (length (snd c)) ltac:(clear -Hz; lia) Hq) as Hq3. clear -Hq3 Hc1; lia. }
        rewrite Z0 in Ep. apply length_zero_iff_nil in Z0, Ep. congruence. }
    rewrite Ec2. unfold cell_bytes. rewrite <- (app_assoc row'), <- (app_assoc (fst c)), Hcr.
    symmetry. apply write_mid; [symmetry; apply Lpre|congruence].
Qed.
