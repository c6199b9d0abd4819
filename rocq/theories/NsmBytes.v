(** * The bytes of a slotted page: proofs *)

From Coq Require Import ZifyBool ZifyNat ZifyN.
From Verif Require Import BaseFacts UtilModel PowerSpec PowerFacts UtilSpec UtilProofs NsmModel NsmSpec NsmProofs NsmBytesSpec.

(** ** Reading and writing in the middle of a list *)

Lemma write_mid {A} (l1 x l2 y : list A) o :
  o = length l1 -> length x = length y -> write (l1 ++ x ++ l2) o y = l1 ++ y ++ l2.
Proof.
  intros -> H. unfold write. rewrite firstn_app, Nat.sub_diag, firstn_all. cbn [firstn].
  rewrite app_nil_r. do 2 f_equal.
  rewrite <- H, app_assoc, skipn_app, app_length.
  rewrite skipn_all2 by (rewrite app_length; lia). rewrite Nat.sub_diag. reflexivity.
Qed.

Lemma slice_mid {A} (l1 x l2 : list A) o n :
  o = length l1 -> n = length x -> slice (l1 ++ x ++ l2) o n = x.
Proof.
  intros -> ->. unfold slice. rewrite skipn_app, Nat.sub_diag, skipn_all. cbn [skipn app].
  rewrite firstn_app, Nat.sub_diag, firstn_all. cbn [firstn]. apply app_nil_r.
Qed.

(** ** Words *)

Lemma words_app v1 v2 : words (v1 ++ v2) = words v1 ++ words v2.
Proof. unfold words. rewrite map_app, concat_app. reflexivity. Qed.

Lemma words_cons v vs : words (v :: vs) = words [v] ++ words vs.
Proof. exact (words_app [v] vs). Qed.

Lemma words_one v : words [v] = le_bytes 4 (Z.of_nat v).
Proof. unfold words. cbn [map concat]. apply app_nil_r. Qed.

Lemma words_length vs : length (words vs) = 4 * length vs.
Proof.
  induction vs as [|v vs IH]; [reflexivity|].
  rewrite words_cons, app_length, IH, words_one, le_bytes_length. cbn [length]. lia.
Qed.

Lemma get_word l1 v l2 o :
  o = length l1 -> (Z.of_nat v < 2 ^ 32)%Z -> get_u32 (l1 ++ words [v] ++ l2) o = Ret (Z.of_nat v).
Proof.
  intros Ho Hv. unfold get_u32.
  pose proof (words_length [v]) as Hl. cbn [length] in Hl.
  replace (o + 4 <=? length (l1 ++ words [v] ++ l2)) with true by (rewrite !app_length; lia).
  rewrite slice_mid by lia. rewrite words_one, le_val_le_bytes_small; [reflexivity|].
  change (256 ^ Z.of_nat 4)%Z with (2 ^ 32)%Z. lia.
Qed.

Lemma set_word l1 s l2 o v :
  o = length l1 -> length s = 4 -> set_u32 (l1 ++ s ++ l2) o (Z.of_nat v) = Ret (l1 ++ words [v] ++ l2).
Proof.
  intros Ho Hs. rewrite set_u32_ok by (rewrite !app_length; lia).
  rewrite write_mid by (try exact Ho; rewrite le_bytes_length; exact Hs). rewrite words_one. reflexivity.
Qed.

Lemma set_first s l2 v : length s = 4 -> set_u32 (s ++ l2) 0 (Z.of_nat v) = Ret (words [v] ++ l2).
Proof. intros Hs. apply (set_word [] s l2 0 v eq_refl Hs). Qed.

(** ** Cells *)

Lemma data_app c1 c2 : data (c1 ++ c2) = data c2 ++ data c1.
Proof. unfold data. rewrite map_app, rev_app_distr, concat_app. reflexivity. Qed.

Lemma data_cons c cs : data (c :: cs) = data cs ++ cell_bytes c.
Proof. change (c :: cs) with ([c] ++ cs). rewrite data_app. f_equal. unfold data. cbn. apply app_nil_r. Qed.

Lemma slots_length cells : forall top, length (slots top cells) = length cells.
Proof. induction cells as [|c cells IH]; intros top; cbn [slots length]; [reflexivity|]. rewrite IH. reflexivity. Qed.

Lemma slots_app c1 : forall top c2,
  slots top (c1 ++ c2) = slots top c1 ++ slots (top - length (data c1)) c2.
Proof.
  induction c1 as [|c c1 IH]; intros top c2.
  - cbn. rewrite Nat.sub_0_r. reflexivity.
  - cbn [app slots]. rewrite IH. cbn [app]. do 3 f_equal.
    rewrite data_cons, app_length. lia.
Qed.

Lemma slots_lower cells : forall top d, length (data cells) + d <= top ->
  slots (top - d) cells = map (fun v => v - d) (slots top cells).
Proof.
  induction cells as [|c cells IH]; intros top d H; [reflexivity|].
  rewrite data_cons, app_length in H. cbn [slots map].
  replace (top - d - length (cell_bytes c)) with (top - length (cell_bytes c) - d) by lia.
  rewrite IH by lia. f_equal. lia.
Qed.

Lemma slots_bound cells : forall top v, length (data cells) <= top -> In v (slots top cells) ->
  top <= v + length (data cells) /\ v <= top.
Proof.
  induction cells as [|c cells IH]; intros top v Ht Hv; [destruct Hv|].
  rewrite data_cons, app_length in *. cbn [slots] in Hv. destruct Hv as [<-|Hv].
  - unfold cell_bytes in *. rewrite app_length in *. lia.
  - apply IH in Hv; lia.
Qed.

Lemma padded_align a c : 0 < a -> padded a c -> length (cell_bytes c) = align_up (length (fst c)) a.
Proof.
  intros Ha [Hl Hd]. unfold cell_bytes. rewrite app_length.
  pose proof (align_up_least (length (fst c)) a _ Ha Hd ltac:(lia)) as H1.
  pose proof (align_up_ge (length (fst c)) a Ha) as H2.
  destruct Hd as [q Hq]. destruct (align_up_div (length (fst c)) a) as [q' Hq'].
  assert (q' = q); [|lia]. nia.
Qed.

Lemma data_stored a cells : 0 < a -> Forall (padded a) cells -> length (data cells) = stored a (map fst cells).
Proof.
  intros Ha F. induction F as [|c cells Hc F IH]; [reflexivity|].
  rewrite data_cons, app_length, IH, (padded_align a c Ha Hc). cbn [map]. rewrite stored_cons. lia.
Qed.

Lemma extent_length cells free : length (page_bytes cells free) = extent cells free.
Proof.
  unfold page_bytes, extent. rewrite !app_length, words_length. cbn [length].
  rewrite slots_length. lia.
Qed.

Lemma nth_split_eq {A} (l : list A) i x : nth_error l i = Some x ->
  l = firstn i l ++ x :: skipn (S i) l.
Proof.
  revert i. induction l as [|y l IH]; intros [|i] H; cbn in *; try discriminate.
  - injection H as ->. reflexivity.
  - f_equal. apply IH, H.
Qed.

(** A page written down field by field around row [i]. *)
Lemma page_at cells free i c : nth_error cells i = Some c ->
  let top := extent cells free in
  let here := top - length (data (firstn (S i) cells)) in
  page_bytes cells free =
    words (length cells :: slots top (firstn i cells)) ++ words [here + length (snd c)] ++
    words (slots here (skipn (S i) cells)) ++ free ++
    data (skipn (S i) cells) ++ cell_bytes c ++ data (firstn i cells).
Proof.
  intros H top here. unfold page_bytes. fold top.
  pose proof (nth_split_eq _ _ _ H) as E.
  assert (D : data cells = data (skipn (S i) cells) ++ cell_bytes c ++ data (firstn i cells)).
  { rewrite E at 1. rewrite data_app, data_cons, <- app_assoc. reflexivity. }
  assert (Hh : here = top - length (data (firstn i cells)) - length (cell_bytes c)).
  { unfold here. rewrite (firstn_S_nth cells i c H), data_app, app_length.
    replace (length (data [c])) with (length (cell_bytes c)); [lia|].
    unfold data. cbn. rewrite app_nil_r. reflexivity. }
  assert (S1 : slots top cells = slots top (firstn i cells) ++
             (here + length (snd c)) :: slots here (skipn (S i) cells)).
  { rewrite E at 1. rewrite slots_app. cbn [slots]. rewrite Hh. reflexivity. }
  rewrite S1, D, app_comm_cons, words_app, words_cons. rewrite <- !app_assoc. reflexivity.
Qed.

(** ** A page written down this way shows its rows *)

Lemma page_is_rep a pg cells free : page_is a pg cells free -> Rep a pg (map fst cells).
Proof.
  intros (Ha & Hd & Hm & Hp & E). apply pow2_true in Ha. pose proof (pow2_pos a Ha) as Hpos.
  assert (HL : length pg = extent cells free) by (rewrite E; apply extent_length).
  pose proof (data_stored a cells Hpos Hp) as HS.
  assert (At : forall i r, nth_error (map fst cells) i = Some r -> exists c, nth_error cells i = Some c /\ fst c = r).
  { intros i r Hi. rewrite nth_error_map in Hi. destruct (nth_error cells i) as [c|]; cbn in Hi; [|discriminate Hi].
    injection Hi as <-. eauto. }
  assert (Pre : forall i, length (data (firstn i cells)) = stored a (firstn i (map fst cells))).
  { intros i. rewrite firstn_map. apply data_stored; [exact Hpos|].
    apply Forall_forall. intros x Hx. rewrite Forall_forall in Hp. apply Hp.
    rewrite <- (firstn_skipn i cells). apply in_or_app. left. exact Hx. }
  constructor.
  - exact Ha.
  - exact Hd.
  - rewrite HL. unfold extent. lia.
  - exact Hm.
  - rewrite map_length, HL, <- HS. unfold extent. lia.
  - rewrite map_length, E. unfold page_bytes. rewrite words_cons, <- app_assoc.
    apply (get_word []); [reflexivity|]. unfold extent in HL. lia.
  - intros i r Hi. destruct (At i r Hi) as (c & Hc & <-).
    assert (Hlt : i < length cells) by (apply nth_error_Some; congruence).
    rewrite E at 1. rewrite (page_at cells free i c Hc). cbv zeta.
    pose proof (Pre (S i)) as HP.
    replace (extent cells free - length (data (firstn (S i) cells)) + length (snd c))
      with (base a (length pg) (map fst cells) (S i) + pad a (fst c)).
    + apply get_word.
      * rewrite words_length. cbn [length]. rewrite slots_length, firstn_length. lia.
      * rewrite Forall_forall in Hp.
        pose proof (padded_align a c Hpos (Hp c (nth_error_In _ _ Hc))) as HA.
        pose proof (stored_firstn_S a (map fst cells) i (fst c) Hi) as HF.
        unfold base, pad. unfold cell_bytes in HA. rewrite app_length in HA.
        pose proof (stored_firstn_total a (map fst cells) (S i)). unfold extent in HL. lia.
    + unfold base, pad. rewrite HP, <- HL.
      rewrite Forall_forall in Hp.
      pose proof (padded_align a c Hpos (Hp c (nth_error_In _ _ Hc))) as HA.
      unfold cell_bytes in HA. rewrite app_length in HA. lia.
  - intros i r Hi. destruct (At i r Hi) as (c & Hc & <-).
    assert (Hlt : i < length cells) by (apply nth_error_Some; congruence).
    rewrite E at 1. rewrite (page_at cells free i c Hc). cbv zeta.
    unfold cell_bytes. rewrite <- !app_assoc. rewrite !app_assoc.
    rewrite <- (app_assoc _ (snd c)), <- (app_assoc _ (fst c)). apply slice_mid; [|reflexivity].
    unfold base. rewrite <- Pre, HL. rewrite !app_length, !words_length. cbn [length].
    rewrite !slots_length, firstn_length, skipn_length. unfold extent.
    rewrite (nth_split_eq _ _ _ Hc) at 2.
    rewrite (firstn_S_nth cells i c Hc). rewrite !data_app, data_cons, !app_length.
    replace (length (data [c])) with (length (cell_bytes c)); [lia|].
    unfold data. cbn. rewrite app_nil_r. reflexivity.
Qed.

(** ** The slot loops *)

Lemma up_loop delta vs : forall l1 s l2 index,
  length l1 = 4 * (index + 1) -> length s = 4 ->
  Forall (fun v => delta <= v /\ (Z.of_nat v < 2 ^ 32)%Z) vs ->
  foldM (shift_slot_up delta) (rev (seq index (length vs))) (l1 ++ words vs ++ s ++ l2) =
  Ret (l1 ++ firstn 4 (words vs ++ s) ++ words (map (fun v => v - delta) vs) ++ l2).
Proof.
  induction vs as [|v vs IH] using rev_ind; intros l1 s l2 index H1 Hs F.
  - cbn [length seq rev foldM words map concat app]. rewrite firstn_all2 by lia. reflexivity.
  - rewrite app_length. cbn [length]. rewrite Nat.add_1_r, seq_S, rev_app_distr. cbn [rev app foldM].
    apply Forall_app in F as [F Fv]. inversion Fv as [|? ? [Hd Hv] _]; subst.
    unfold shift_slot_up at 1, get_row_offset, set_row_offset.
    rewrite words_app, <- !app_assoc. rewrite (app_assoc l1 (words vs)).
    rewrite get_word by (try exact Hv; rewrite app_length, words_length; lia).
    cbn [bind]. rewrite Nat2Z.id. unfold usub. replace (delta <=? v) with true by lia. cbn [bind].
    rewrite (app_assoc _ (words [v])).
    rewrite set_word by (try exact Hs; rewrite !app_length, !words_length; cbn [length]; lia).
    cbn [bind]. rewrite <- !app_assoc.
    rewrite (IH l1 (words [v]) _ index H1 (words_length [v]) F).
    f_equal. f_equal. rewrite map_app, words_app. cbn [map]. rewrite <- !app_assoc. f_equal.
    rewrite (app_assoc (words vs)), (firstn_app 4 (words vs ++ words [v]) s), !app_length, !words_length. cbn [length].
    replace (4 - (4 * length vs + 4 * 1)) with 0 by lia. cbn [firstn]. rewrite app_nil_r. reflexivity.
Qed.

Lemma down_loop delta vs : forall l1 s l2 index,
  length l1 = 4 * (index + 1) -> length s = 4 ->
  Forall (fun v => (Z.of_nat v < 2 ^ 32)%Z) vs ->
  foldM (shift_slot_down delta) (seq (index + 1) (length vs)) (l1 ++ s ++ words vs ++ l2) =
  Ret (l1 ++ words (map (fun v => v + delta) vs) ++ skipn (4 * length vs) (s ++ words vs) ++ l2).
Proof.
  induction vs as [|v vs IH]; intros l1 s l2 index H1 Hs F.
  - cbn [length seq foldM words map concat app]. rewrite Nat.mul_0_r. cbn [skipn]. rewrite app_nil_r. reflexivity.
  - cbn [length seq foldM]. inversion F as [|? ? Hv F']; subst.
    unfold shift_slot_down at 1, get_row_offset, set_row_offset.
    rewrite words_cons, <- !app_assoc. rewrite (app_assoc l1 s).
    rewrite get_word by (try exact Hv; rewrite app_length; lia).
    cbn [bind]. rewrite Nat2Z.id. unfold usub. replace (1 <=? index + 1) with true by lia. cbn [bind].
    rewrite <- app_assoc. replace (index + 1 - 1) with index by lia.
    rewrite set_word by (try exact Hs; lia). cbn [bind].
    rewrite (app_assoc l1 (words [v + delta])).
    replace (S (index + 1)) with ((index + 1) + 1) by lia.
    rewrite IH; [|rewrite app_length, H1, words_length; cbn [length]; lia|apply words_length|exact F'].
    assert (K : skipn (4 * S (length vs)) (s ++ words [v] ++ words vs) = skipn (4 * length vs) (words [v] ++ words vs)).
    { rewrite (skipn_app _ s), Hs, (skipn_all2 s) by lia. cbn [app]. f_equal. lia. }
    rewrite K. cbn [map]. rewrite (words_cons (v + delta)), <- !app_assoc. reflexivity.
Qed.

(** ** Rows going to and from a page in split form *)

Lemma put_row_split a c1 c2 s f t row :
  length s = 4 -> length t = align_up (length row) a ->
  put_row a (length c1) row (c1 ++ c2, s ++ f ++ t) =
  (c1 ++ (row, skipn (length row) (skipn (length (data c2)) (t ++ data c2))) :: c2, f).
Proof.
  intros Hs Ht. unfold put_row. cbv zeta.
  replace (firstn (length c1) (c1 ++ c2)) with c1
    by (rewrite firstn_app, Nat.sub_diag, firstn_all; cbn [firstn]; rewrite app_nil_r; reflexivity).
  replace (skipn (length c1) (c1 ++ c2)) with c2
    by (rewrite skipn_app, Nat.sub_diag, skipn_all; reflexivity).
  replace (length (s ++ f ++ t) - align_up (length row) a) with (length (s ++ f))
    by (rewrite !app_length; lia).
  replace (skipn (length (s ++ f)) (s ++ f ++ t)) with t
    by (rewrite (app_assoc s f t), (skipn_app _ (s ++ f)), Nat.sub_diag, skipn_all; reflexivity).
  replace (firstn (length (s ++ f)) (s ++ f ++ t)) with (s ++ f)
    by (rewrite (app_assoc s f t), (firstn_app _ (s ++ f)), Nat.sub_diag, firstn_all; cbn [firstn];
        rewrite app_nil_r; reflexivity).
  rewrite (skipn_app 4 s f), Hs, Nat.sub_diag, (skipn_all2 s) by lia. reflexivity.
Qed.

Lemma take_row_split c1 c c2 free :
  take_row (length c1) (c1 ++ c :: c2, free) =
  (c1 ++ c2,
   words [last (slots (extent (c1 ++ c :: c2) free) (c1 ++ c :: c2)) 0] ++ free ++
   firstn (length (cell_bytes c)) (data c2 ++ cell_bytes c)).
Proof.
  unfold take_row. cbv zeta.
  replace (firstn (length c1) (c1 ++ c :: c2)) with c1
    by (rewrite firstn_app, Nat.sub_diag, firstn_all; cbn [firstn]; rewrite app_nil_r; reflexivity).
  rewrite app_nth2, Nat.sub_diag by lia. cbn [nth].
  replace (skipn (S (length c1)) (c1 ++ c :: c2)) with c2.
  - do 3 f_equal. rewrite data_app, data_cons, firstn_app.
    replace (length (cell_bytes c) - length (data c2 ++ cell_bytes c)) with 0 by (rewrite app_length; lia).
    cbn [firstn]. apply app_nil_r.
  - change (c :: c2) with ([c] ++ c2). rewrite app_assoc, skipn_app.
    rewrite skipn_all2 by (rewrite app_length; cbn; lia).
    rewrite app_length. cbn [length]. replace (S (length c1) - (length c1 + 1)) with 0 by lia. reflexivity.
Qed.

Lemma free_split (free : list byte) d : 4 + d <= length free ->
  exists s f t, free = s ++ f ++ t /\ length s = 4 /\ length t = d.
Proof.
  intros H. set (k := length free - d - 4).
  exists (firstn 4 free), (firstn k (skipn 4 free)), (skipn k (skipn 4 free)).
  rewrite !firstn_skipn. split; [reflexivity|].
  rewrite firstn_length, !skipn_length. unfold k. lia.
Qed.

Section Ops.

Context (a : nat) (c1 c2 : list cell) (s f t row : list byte).
Let cells := c1 ++ c2.
Let free := s ++ f ++ t.
Let pg := page_bytes cells free.
Let d := align_up (length row) a.
Let u := skipn (length (data c2)) (t ++ data c2).
Let p := skipn (length row) u.
Hypotheses (Hpg : page_is a pg cells free) (Hs : length s = 4) (Ht : length t = d).

Lemma ops_pos : 0 < a.
Proof. apply pow2_pos, pow2_true, Hpg. Qed.

Lemma u_length : length u = d.
Proof. unfold u. rewrite skipn_length, app_length. lia. Qed.

Lemma row_le : length row <= d.
Proof. apply align_up_ge, ops_pos. Qed.

Lemma p_length : length p = pad a row.
Proof. unfold p, pad. rewrite skipn_length, u_length. reflexivity. Qed.

Lemma u_split : exists x, u = x ++ p /\ length x = length row.
Proof.
  exists (firstn (length row) u). split; [symmetry; apply firstn_skipn|].
  rewrite firstn_length, u_length. pose proof row_le. lia.
Qed.

Lemma moved_split : exists q, t ++ data c2 = q ++ u /\ length q = length (data c2).
Proof.
  exists (firstn (length (data c2)) (t ++ data c2)). split; [symmetry; apply firstn_skipn|].
  rewrite firstn_length, app_length. lia.
Qed.

Lemma pg_extent : length pg = 4 * (length c1 + length c2 + 1) + (4 + length f + d) + (length (data c2) + length (data c1)).
Proof. unfold pg. rewrite extent_length. unfold extent, cells, free. rewrite data_app, !app_length. lia. Qed.

Lemma data_c1 : length (data c1) = stored a (map fst c1).
Proof. apply data_stored; [apply ops_pos|]. destruct Hpg as (_ & _ & _ & F & _). apply Forall_app in F. apply F. Qed.

Lemma data_all : length (data c2) + length (data c1) = stored a (map fst cells).
Proof.
  rewrite <- app_length, <- data_app. apply data_stored; [apply ops_pos|]. apply Hpg.
Qed.

Lemma base_here : base a (length pg) (map fst cells) (length c1) = length pg - length (data c1).
Proof.
  unfold base, cells. rewrite map_app, firstn_app, map_length, Nat.sub_diag. cbn [firstn].
  rewrite app_nil_r, firstn_all2 by (rewrite map_length; lia). rewrite <- data_c1. reflexivity.
Qed.

(** The page after the row has gone in. *)
Let pg' := page_bytes (c1 ++ (row, p) :: c2) f.

Lemma new_extent : extent (c1 ++ (row, p) :: c2) f = length pg.
Proof.
  rewrite pg_extent. unfold extent. rewrite data_app, data_cons, !app_length. cbn [length].
  unfold cell_bytes. cbn [fst snd]. rewrite app_length, p_length.
  pose proof (pad_eq a row ops_pos). fold d in H. lia.
Qed.

Lemma new_page : pg' =
  words [length cells + 1] ++ words (slots (length pg) c1) ++
  words [length pg - length (data c1) - d + pad a row] ++
  words (map (fun v => v - d) (slots (length pg - length (data c1)) c2)) ++
  f ++ data c2 ++ (row ++ p) ++ data c1.
Proof.
  unfold pg', page_bytes. rewrite new_extent, slots_app. cbn [slots].
  assert (E : length (cell_bytes (row, p)) = d).
  { unfold cell_bytes. cbn [fst snd]. rewrite app_length, p_length. apply (pad_eq a row ops_pos). }
  rewrite E. cbn [snd]. rewrite p_length.
  rewrite slots_lower by (pose proof pg_extent; lia).
  rewrite words_cons, words_app, words_cons, data_app, data_cons.
  replace (length (c1 ++ (row, p) :: c2)) with (length cells + 1)
    by (unfold cells; rewrite !app_length; cbn [length]; lia).
  unfold cell_bytes. cbn [fst snd]. rewrite <- !app_assoc. reflexivity.
Qed.

Lemma new_page_is : page_is a pg' (c1 ++ (row, p) :: c2) f.
Proof.
  destruct Hpg as (A & B & C & F & _).
  assert (L : length pg' = length pg) by (unfold pg'; rewrite extent_length; apply new_extent).
  repeat split; rewrite ?L; try assumption.
  apply Forall_app in F as [F1 F2]. apply Forall_app. split; [exact F1|]. constructor; [|exact F2].
  split; cbn [fst snd]; rewrite p_length.
  - apply pad_lt, ops_pos.
  - rewrite (pad_eq a row ops_pos). apply align_up_div.
Qed.

Lemma old_page : pg =
  words [length cells] ++ words (slots (length pg) c1) ++ words (slots (length pg - length (data c1)) c2) ++
  s ++ f ++ t ++ data c2 ++ data c1.
Proof.
  unfold pg at 1. unfold page_bytes. rewrite <- extent_length. fold pg. unfold cells at 2.
  rewrite slots_app, words_cons, words_app. unfold cells, free. rewrite data_app, <- !app_assoc. reflexivity.
Qed.

Lemma d_divide : Nat.divide a (length pg - length (data c1) - d).
Proof.
  apply divide_sub; [apply divide_sub|].
  - apply Hpg.
  - rewrite data_c1. apply stored_divide.
  - apply align_up_div.
Qed.

Lemma append_bytes : c2 = [] -> row_ok (length pg) a (map fst cells) row -> append_row a pg row = Ret pg'.
Proof.
  intros E2 Hok. pose proof (page_is_rep a pg cells free Hpg) as R.
  pose proof (rep_max _ _ _ R) as Hmax. pose proof pg_extent as HL. pose proof data_all as HD.
  pose proof row_le as Hrow. pose proof ops_pos as Hpos.
  assert (Hn : length (map fst cells) = length c1) by (rewrite map_length; unfold cells; rewrite E2, app_nil_r; reflexivity).
  unfold append_row. rewrite (rep_max_insert R). cbn [bind].
  destruct Hok as [Hcap _]. replace (length row <=? capacity (length pg) a (map fst cells)) with true by lia.
  rewrite (rep_num_rows R). cbn [bind]. rewrite Hn.
  rewrite (rep_align R) by lia. cbn [bind]. fold d.
  rewrite (rep_upper R) by lia. cbn [bind]. rewrite base_here.
  unfold usub at 1. replace (d <=? length pg - length (data c1)) with true by lia. cbn [bind].
  unfold usub at 1. replace (length row <=? d) with true by lia. cbn [bind].
  change (d - length row) with (pad a row).
  rewrite (lor_slot a) by (try apply d_divide; try apply pad_lt; try assumption; apply pow2_true, Hpg).
  unfold copy_range. set (ro := length pg - length (data c1) - d).
  replace (ro <=? ro + length row) with true by lia.
  replace (ro + length row <=? length pg) with true by lia.
  replace (ro + length row - ro =? length row) with true by lia. cbn [andb bind].
  assert (Hut : u = t) by (unfold u; rewrite E2; cbn [data map rev concat length skipn]; apply app_nil_r).
  destruct u_split as (x & Hx & Lx). rewrite Hut in Hx.
  pose proof new_page as NP. pose proof old_page as OP.
  rewrite E2 in NP, OP. cbn [slots map] in NP, OP.
  change (words []) with (@nil byte) in NP, OP. change (data []) with (@nil byte) in NP, OP. cbn [app] in NP, OP.
  rewrite NP, OP at 1. rewrite Hx. rewrite <- !app_assoc.
  assert (Lw : forall v, length (words [v]) = 4) by (intros v; apply words_length).
  replace (words [length cells] ++ words (slots (length pg) c1) ++ s ++ f ++ x ++ p ++ data c1)
    with ((words [length cells] ++ words (slots (length pg) c1) ++ s ++ f) ++ x ++ (p ++ data c1))
    by (rewrite <- !app_assoc; reflexivity).
  rewrite E2 in HL. cbn [length data map rev concat] in HL.
  rewrite write_mid; [|rewrite !app_length, !words_length, slots_length; cbn [length]; unfold ro; lia|exact Lx].
  unfold set_row_offset.
  replace ((words [length cells] ++ words (slots (length pg) c1) ++ s ++ f) ++ row ++ p ++ data c1)
    with ((words [length cells] ++ words (slots (length pg) c1)) ++ s ++ (f ++ row ++ p ++ data c1))
    by (rewrite <- !app_assoc; reflexivity).
  rewrite set_word; [|rewrite !app_length, !words_length, slots_length; cbn [length]; lia|exact Hs].
  cbn [bind]. unfold set_num_rows. rewrite <- !app_assoc.
  rewrite set_first by apply Lw.
  cbn [app]. replace (length cells) with (length c1) by (rewrite <- Hn, map_length; reflexivity). reflexivity.
Qed.

Lemma insert_bytes : row_ok (length pg) a (map fst cells) row -> insert_row a pg (length c1) row = Ret pg'.
Proof.
  intros Hok. pose proof (page_is_rep a pg cells free Hpg) as R.
  pose proof (rep_max _ _ _ R) as Hmax. pose proof pg_extent as HL. pose proof data_all as HD.
  pose proof row_le as Hrow. pose proof ops_pos as Hpos.
  assert (Hn : length (map fst cells) = length c1 + length c2) by (rewrite map_length; unfold cells; apply app_length).
  unfold insert_row. rewrite (rep_max_insert R). cbn [bind].
  pose proof (proj1 Hok) as Hcap. replace (length row <=? capacity (length pg) a (map fst cells)) with true by lia.
  rewrite (rep_num_rows R). cbn [bind]. rewrite Hn.
  destruct (Nat.eqb_spec (length c1) (length c1 + length c2)) as [E|E].
  { apply append_bytes; [|exact Hok]. apply length_zero_iff_nil. lia. }
  rewrite (rep_align R) by lia. cbn [bind]. fold d.
  unfold usub at 1. replace (1 <=? length c1 + length c2) with true by lia. cbn [bind].
  rewrite (rep_aligned R) by lia. cbn [bind].
  replace (S (length c1 + length c2 - 1)) with (length (map fst cells)) by lia. rewrite base_all.
  rewrite (rep_upper R) by lia. cbn [bind]. rewrite base_here.
  unfold usub at 1. replace (d <=? length pg - stored a (map fst cells)) with true by lia. cbn [bind].
  unfold usub at 1.
  replace (length pg - stored a (map fst cells) <=? length pg - length (data c1)) with true by lia. cbn [bind].
  replace (length pg - stored a (map fst cells)) with (length pg - length (data c1) - length (data c2)) by lia.
  replace (length pg - length (data c1) - (length pg - length (data c1) - length (data c2)))
    with (length (data c2)) by lia.
  set (B := length pg - length (data c1)) in *.
  assert (HB : B = 4 * (length c1 + length c2 + 1) + (4 + length f + d) + length (data c2)) by (unfold B; lia).
  unfold raw_copy.
  replace (B - length (data c2) <=? length pg) with true by lia.
  replace (B - length (data c2) - d <=? length pg) with true by lia. cbn [andb].
  replace (B - length (data c2) + length (data c2) <=? length pg) with true by lia.
  replace (B - length (data c2) - d + length (data c2) <=? length pg) with true by lia. cbn [andb bind].
  assert (Lw : forall v, length (words [v]) = 4) by (intros v; apply words_length).
  destruct moved_split as (q & Hq & Lq). destruct u_split as (x & Hx & Lx).
  pose proof u_length as Lu.
  set (W := words [length cells] ++ words (slots (length pg) c1)).
  set (vs := slots B c2).
  assert (LW : length W = 4 * (length c1 + 1)).
  { unfold W. rewrite app_length, !words_length, slots_length. cbn [length]. lia. }
  assert (Lvs : length vs = length c2) by apply slots_length.
  assert (Sl : slice pg (B - length (data c2)) (length (data c2)) = data c2).
  { rewrite old_page at 1. fold B vs.
    replace (words [length cells] ++ words (slots (length pg) c1) ++ words vs ++ s ++ f ++ t ++ data c2 ++ data c1)
      with ((W ++ words vs ++ s ++ f ++ t) ++ data c2 ++ data c1) by (unfold W; rewrite <- !app_assoc; reflexivity).
    apply slice_mid; [|reflexivity]. rewrite !app_length, LW, words_length. lia. }
  rewrite Sl.
  assert (Wr : write pg (B - length (data c2) - d) (data c2) = W ++ words vs ++ s ++ (f ++ data c2 ++ u ++ data c1)).
  { rewrite old_page at 1. fold B vs.
    replace (words [length cells] ++ words (slots (length pg) c1) ++ words vs ++ s ++ f ++ t ++ data c2 ++ data c1)
      with ((W ++ words vs ++ s ++ f) ++ q ++ (u ++ data c1)).
    - rewrite write_mid; [|rewrite !app_length, LW, words_length; lia|exact Lq]. rewrite <- !app_assoc. reflexivity.
    - unfold W. rewrite <- !app_assoc. do 5 f_equal. rewrite !app_assoc, Hq. reflexivity. }
  rewrite Wr.
  replace (length c1 + length c2 - length c1) with (length vs) by lia.
  rewrite up_loop; [|exact LW|exact Hs|].
  2:{ apply Forall_forall. intros v Hv. unfold vs in Hv. apply slots_bound in Hv; lia. }
  cbn [bind]. unfold usub at 1. replace (length row <=? d) with true by lia. cbn [bind].
  unfold usub at 1. replace (d <=? B) with true by lia. cbn [bind].
  change (d - length row) with (pad a row).
  rewrite (lor_slot a) by (try (unfold B; apply d_divide); try apply pad_lt; try assumption; apply pow2_true, Hpg).
  set (z := firstn 4 (words vs ++ s)).
  assert (Lz : length z = 4) by (unfold z; rewrite firstn_length, app_length, words_length; lia).
  assert (Lm : length (words (map (fun v => v - d) vs)) = 4 * length c2)
    by (rewrite words_length, map_length; lia).
  unfold copy_range.
  assert (LP : length (W ++ z ++ words (map (fun v => v - d) vs) ++ f ++ data c2 ++ u ++ data c1) = length pg).
  { rewrite !app_length, LW, Lz, Lm. lia. }
  rewrite LP.
  replace (B - d <=? B - d + length row) with true by lia.
  replace (B - d + length row <=? length pg) with true by lia.
  replace (B - d + length row - (B - d) =? length row) with true by lia. cbn [andb bind].
  replace (W ++ z ++ words (map (fun v => v - d) vs) ++ f ++ data c2 ++ u ++ data c1)
    with ((W ++ z ++ words (map (fun v => v - d) vs) ++ f ++ data c2) ++ x ++ (p ++ data c1))
    by (rewrite Hx, <- !app_assoc; reflexivity).
  rewrite write_mid; [|rewrite !app_length, LW, Lz, Lm; lia|exact Lx].
  unfold set_row_offset. rewrite <- !app_assoc.
  rewrite set_word; [|lia|exact Lz]. cbn [bind].
  unfold set_num_rows, W. rewrite <- !app_assoc.
  rewrite set_first by apply Lw.
  rewrite new_page. fold B vs. cbn [app]. rewrite <- !app_assoc.
  replace (length cells) with (length c1 + length c2) by (unfold cells; rewrite app_length; reflexivity). reflexivity.
Qed.

End Ops.

Lemma last_word vs : forall v, skipn (4 * length vs) (words (v :: vs)) = words [last (v :: vs) 0].
Proof.
  induction vs as [|w vs IH]; intros v; [reflexivity|].
  rewrite words_cons, skipn_app, words_length. cbn [length].
  rewrite skipn_all2 by (rewrite words_length; cbn [length]; lia). cbn [app].
  replace (4 * S (length vs) - 4 * 1) with (4 * length vs) by lia. rewrite IH. reflexivity.
Qed.

Lemma slots_raise c2 B dc : length (data c2) + dc <= B ->
  map (fun v => v + dc) (slots (B - dc) c2) = slots B c2.
Proof.
  intros H. rewrite slots_lower by exact H. rewrite map_map. rewrite <- (map_id (slots B c2)) at 2.
  apply map_ext_in. intros v Hv. apply slots_bound in Hv; lia.
Qed.

Lemma last_app_ne {A} (l1 l2 : list A) x : l2 <> [] -> last (l1 ++ l2) x = last l2 x.
Proof.
  intros H. induction l1 as [|y l1 IH]; [reflexivity|]. cbn [app last].
  destruct (l1 ++ l2) as [|z r] eqn:E; [|exact IH].
  apply app_eq_nil in E as [_ E]. contradiction.
Qed.

Section Take.

Context (a : nat) (c1 c2 : list cell) (c : cell) (free : list byte).
Let cells := c1 ++ c :: c2.
Let pg := page_bytes cells free.
Let dc := length (cell_bytes c).
Let y := firstn dc (data c2 ++ cell_bytes c).
Let free' := words [last (slots (extent cells free) cells) 0] ++ free ++ y.
Hypotheses (Hpg : page_is a pg cells free).

Lemma take_pos : 0 < a.
Proof. apply pow2_pos, pow2_true, Hpg. Qed.

Lemma take_padded : Forall (padded a) c1 /\ padded a c /\ Forall (padded a) c2.
Proof.
  destruct Hpg as (_ & _ & _ & F & _). unfold cells in F. apply Forall_app in F as [F1 F2].
  inversion F2; subst. auto.
Qed.

Lemma y_length : length y = dc.
Proof. unfold y. rewrite firstn_length, app_length. unfold dc. lia. Qed.

Lemma y_split : exists q, data c2 ++ cell_bytes c = y ++ q /\ length q = length (data c2).
Proof.
  exists (skipn dc (data c2 ++ cell_bytes c)). split; [symmetry; apply firstn_skipn|].
  rewrite skipn_length, app_length. unfold dc. lia.
Qed.

Lemma take_extent : length pg =
  4 * (length c1 + length c2 + 2) + length free + (length (data c2) + dc + length (data c1)).
Proof.
  unfold pg. rewrite extent_length. unfold extent, cells.
  rewrite data_app, data_cons, !app_length. cbn [length]. unfold dc. lia.
Qed.

Lemma taken_extent : extent (c1 ++ c2) free' = length pg.
Proof.
  rewrite take_extent. unfold extent, free'. rewrite data_app, !app_length, words_length, y_length. cbn [length]. lia.
Qed.

Lemma base_take : base a (length pg) (map fst cells) (length c1) = length pg - length (data c1).
Proof.
  unfold base, cells. rewrite map_app, firstn_app, map_length, Nat.sub_diag. cbn [firstn].
  rewrite app_nil_r, firstn_all2 by (rewrite map_length; lia).
  rewrite (data_stored a c1 take_pos) by apply take_padded. reflexivity.
Qed.

Lemma base_next : base a (length pg) (map fst cells) (S (length c1)) = length pg - length (data c1) - dc.
Proof.
  unfold base, cells. rewrite map_app, firstn_app, map_length.
  replace (S (length c1) - length c1) with 1 by lia. change (firstn 1 (map fst (c :: c2))) with [fst c].
  rewrite firstn_all2 by (rewrite map_length; lia). rewrite stored_app.
  rewrite (data_stored a c1 take_pos) by apply take_padded.
  unfold dc. rewrite (padded_align a c take_pos) by apply take_padded.
  change (stored a [fst c]) with (align_up (length (fst c)) a + 0). lia.
Qed.

Lemma take_stored : stored a (map fst cells) = length (data c2) + dc + length (data c1).
Proof.
  rewrite <- (data_stored a cells take_pos) by apply Hpg.
  unfold cells. rewrite data_app, data_cons, !app_length. unfold dc. lia.
Qed.

Lemma taken_page_is : page_is a (page_bytes (c1 ++ c2) free') (c1 ++ c2) free'.
Proof.
  destruct Hpg as (A & B & C & _ & _). destruct take_padded as (F1 & _ & F2).
  repeat split; rewrite ?extent_length, ?taken_extent; try assumption.
  apply Forall_app. auto.
Qed.

Lemma take_page : pg =
  (words [length cells] ++ words (slots (length pg) c1)) ++
  words [length pg - length (data c1) - dc + length (snd c)] ++
  words (slots (length pg - length (data c1) - dc) c2) ++ free ++ data c2 ++ cell_bytes c ++ data c1.
Proof.
  unfold pg at 1. unfold page_bytes. rewrite <- extent_length. fold pg. unfold cells at 2 3.
  rewrite slots_app. cbn [slots]. rewrite words_cons, words_app, words_cons, data_app, data_cons.
  fold dc. rewrite <- !app_assoc. reflexivity.
Qed.

Lemma take_last : last (slots (extent cells free) cells) 0 =
  last ((length pg - length (data c1) - dc + length (snd c)) :: slots (length pg - length (data c1) - dc) c2) 0.
Proof.
  rewrite <- extent_length. fold pg. unfold cells. rewrite slots_app. cbn [slots]. fold dc.
  rewrite last_app_ne; [reflexivity|discriminate].
Qed.

Lemma remove_bytes : remove_row a pg (length c1) = Ret (page_bytes (c1 ++ c2) free').
Proof.
  pose proof (page_is_rep a pg cells free Hpg) as R.
  pose proof (rep_max _ _ _ R) as Hmax. pose proof take_extent as HL. pose proof take_stored as HD.
  assert (Hn : length (map fst cells) = length c1 + length c2 + 1)
    by (rewrite map_length; unfold cells; rewrite app_length; cbn [length]; lia).
  assert (Hc : length cells = length c1 + length c2 + 1) by (rewrite <- Hn, map_length; reflexivity).
  assert (Lw : forall v, length (words [v]) = 4) by (intros v; apply words_length).
  unfold remove_row. rewrite (rep_num_rows R). cbn [bind]. rewrite Hn.
  replace (length c1 <? length c1 + length c2 + 1) with true by lia.
  set (B := length pg - length (data c1)) in *.
  assert (HB : B = 4 * (length c1 + length c2 + 2) + length free + (length (data c2) + dc)) by (unfold B; lia).
  assert (New : page_bytes (c1 ++ c2) free' =
    words [length c1 + length c2] ++ words (slots (length pg) c1) ++
    words (map (fun v => v + dc) (slots (B - dc) c2)) ++
    words [last ((B - dc + length (snd c)) :: slots (B - dc) c2) 0] ++ free ++ y ++ data c2 ++ data c1).
  { unfold page_bytes. rewrite taken_extent, slots_app. fold B. rewrite slots_raise by lia.
    rewrite words_cons, words_app, data_app, app_length. unfold free'. rewrite take_last. fold B.
    rewrite <- !app_assoc. reflexivity. }
  destruct (Nat.ltb_spec (length c1) (length c1 + length c2 + 1 - 1)) as [Hi|Hi].
  2:{ assert (E2 : c2 = []) by (apply length_zero_iff_nil; lia).
    unfold set_num_rows. rewrite take_page, <- !app_assoc. rewrite set_first by apply Lw.
    rewrite New. fold B. f_equal.
    assert (Ey : y = cell_bytes c) by (unfold y, dc; rewrite E2; cbn [data map rev concat app]; apply firstn_all).
    rewrite Ey, E2. cbn [slots map last length]. change (words []) with (@nil byte). change (data []) with (@nil byte).
    cbn [app]. replace (length c1 + 0 + 1 - 1) with (length c1 + 0) by lia. reflexivity. }
  rewrite (rep_aligned R) by lia. cbn [bind]. rewrite base_next. fold B.
  rewrite (rep_upper R) by lia. cbn [bind]. rewrite base_take. fold B.
  rewrite (rep_aligned R) by lia. cbn [bind].
  replace (S (length c1 + length c2 + 1 - 1)) with (length (map fst cells)) by lia. rewrite base_all.
  replace (length pg - stored a (map fst cells)) with (B - dc - length (data c2)) by (unfold B; lia).
  unfold usub at 1. replace (B - dc <=? B) with true by lia. cbn [bind].
  replace (B - (B - dc)) with dc by lia.
  rewrite take_page. fold B.
  set (W := words [length cells] ++ words (slots (length pg) c1)).
  assert (LW : length W = 4 * (length c1 + 1)).
  { unfold W. rewrite app_length, !words_length, slots_length. cbn [length]. lia. }
  set (v := B - dc + length (snd c)) in *. set (vs := slots (B - dc) c2) in *.
  assert (Lvs : length vs = length c2) by apply slots_length.
  replace (length c1 + length c2 + 1 - (length c1 + 1)) with (length vs) by lia.
  rewrite down_loop; [|exact LW|apply Lw|].
  2:{ apply Forall_forall. intros z Hz. unfold vs in Hz. apply slots_bound in Hz; lia. }
  cbn [bind]. unfold usub at 1. replace (B - dc - length (data c2) <=? B - dc) with true by lia. cbn [bind].
  replace (B - dc - (B - dc - length (data c2))) with (length (data c2)) by lia.
  rewrite <- words_cons, last_word.
  set (ws := words (map (fun v => v + dc) vs)). set (z := words [last (v :: vs) 0]).
  assert (Lws : length ws = 4 * length c2) by (unfold ws; rewrite words_length, map_length; lia).
  assert (Lz : length z = 4) by apply Lw.
  destruct y_split as (q & Hq & Lq). pose proof y_length as Ly.
  unfold raw_copy.
  replace (length (W ++ ws ++ z ++ free ++ data c2 ++ cell_bytes c ++ data c1)) with (length pg)
    by (rewrite !app_length, LW, Lws, Lz; fold dc; lia).
  replace (B - dc - length (data c2) <=? length pg) with true by lia.
  replace (B - dc - length (data c2) + dc <=? length pg) with true by lia. cbn [andb].
  replace (B - dc - length (data c2) + length (data c2) <=? length pg) with true by lia.
  replace (B - dc - length (data c2) + dc + length (data c2) <=? length pg) with true by lia. cbn [andb bind].
  assert (Sl : slice (W ++ ws ++ z ++ free ++ data c2 ++ cell_bytes c ++ data c1)
                 (B - dc - length (data c2)) (length (data c2)) = data c2).
  { replace (W ++ ws ++ z ++ free ++ data c2 ++ cell_bytes c ++ data c1)
      with ((W ++ ws ++ z ++ free) ++ data c2 ++ (cell_bytes c ++ data c1)) by (rewrite <- !app_assoc; reflexivity).
    apply slice_mid; [|reflexivity]. rewrite !app_length, LW, Lws, Lz. lia. }
  rewrite Sl.
  replace (W ++ ws ++ z ++ free ++ data c2 ++ cell_bytes c ++ data c1)
    with ((W ++ ws ++ z ++ free ++ y) ++ q ++ data c1).
  2:{ rewrite <- !app_assoc. do 4 f_equal. rewrite !app_assoc, Hq. reflexivity. }
  rewrite write_mid; [|rewrite !app_length, LW, Lws, Lz; lia|exact Lq].
  unfold set_num_rows, W. rewrite <- !app_assoc. rewrite set_first by apply Lw.
  rewrite New. replace (length c1 + length c2 + 1 - 1) with (length c1 + length c2) by lia. reflexivity.
Qed.

End Take.

(** ** Operations, histories *)

Lemma put_rows a i row cells free : i <= length cells ->
  map fst (fst (put_row a i row (cells, free))) = firstn i (map fst cells) ++ row :: skipn i (map fst cells).
Proof.
  intros Hi. unfold put_row. cbn [fst]. rewrite map_app. cbn [map fst].
  rewrite firstn_map, skipn_map. reflexivity.
Qed.

Lemma put_step a pg cells free i row :
  page_is a pg cells free -> i <= length cells -> row_ok (length pg) a (map fst cells) row ->
  let '(cells', free') := put_row a i row (cells, free) in
  insert_row a pg i row = Ret (page_bytes cells' free') /\
  (i = length cells -> append_row a pg row = Ret (page_bytes cells' free')) /\
  page_is a (page_bytes cells' free') cells' free'.
Proof.
  intros Hp Hi Hok. pose proof (page_is_rep _ _ _ _ Hp) as R.
  pose proof (row_ok_room R row Hok) as Room. rewrite map_length in Room.
  assert (Ha : 0 < a) by (apply pow2_pos, pow2_true, Hp).
  assert (E : pg = page_bytes cells free) by apply Hp.
  assert (HL : length pg = extent cells free) by (rewrite E; apply extent_length).
  unfold extent in HL. rewrite (data_stored a cells Ha) in HL by apply Hp.
  destruct (free_split free (align_up (length row) a) ltac:(lia)) as (s & f & t & -> & Hs & Ht).
  set (c1 := firstn i cells). set (c2 := skipn i cells).
  assert (Ec : cells = c1 ++ c2) by (symmetry; apply firstn_skipn).
  assert (Ei : i = length c1) by (unfold c1; rewrite firstn_length; lia).
  clearbody c1 c2. subst cells. rewrite Ei, (put_row_split a c1 c2 s f t row Hs Ht).
  subst pg. split; [|split].
  - apply insert_bytes; assumption.
  - intros El. apply append_bytes; try assumption.
    rewrite app_length in El. apply length_zero_iff_nil. lia.
  - apply (new_page_is a c1 c2 s f t row); assumption.
Qed.

Lemma take_step a pg cells free i :
  page_is a pg cells free -> i < length cells ->
  let '(cells', free') := take_row i (cells, free) in
  remove_row a pg i = Ret (page_bytes cells' free') /\ page_is a (page_bytes cells' free') cells' free'.
Proof.
  intros Hp Hi. destruct (nth_error cells i) as [c|] eqn:Ec.
  2:{ apply nth_error_None in Ec. lia. }
  pose proof (nth_split_eq _ _ _ Ec) as E.
  set (c1 := firstn i cells) in *. set (c2 := skipn (S i) cells) in *.
  assert (Ei : i = length c1) by (unfold c1; rewrite firstn_length; lia).
  clearbody c1 c2. subst cells. rewrite Ei, take_row_split.
  assert (Epg : pg = page_bytes (c1 ++ c :: c2) free) by apply Hp. subst pg. split.
  - apply remove_bytes. exact Hp.
  - apply taken_page_is. exact Hp.
Qed.

Lemma bytes_step a pg cells free op :
  page_is a pg cells free -> op_ok (length pg) a (map fst cells) op ->
  let '(cells', free') := bytes_op a (cells, free) op in
  apply_op a pg op = Ret (page_bytes cells' free') /\
  page_is a (page_bytes cells' free') cells' free' /\
  map fst cells' = spec_op (map fst cells) op.
Proof.
  intros Hp Hok. destruct op as [row|i row|i]; cbn [bytes_op apply_op spec_op op_ok fst] in *.
  - pose proof (put_step a pg cells free (length cells) row Hp ltac:(lia) Hok) as H.
    pose proof (put_rows a (length cells) row cells free ltac:(lia)) as Hr.
    destruct (put_row a (length cells) row (cells, free)) as [cells' free'] eqn:Ep.
    destruct H as (_ & H1 & H2). split; [auto|]. split; [exact H2|].
    cbn [fst] in Hr. rewrite Hr. rewrite firstn_all2, skipn_all2 by (rewrite map_length; lia). reflexivity.
  - destruct Hok as [Hi Hok]. rewrite map_length in Hi.
    pose proof (put_step a pg cells free i row Hp Hi Hok) as H.
    pose proof (put_rows a i row cells free Hi) as Hr.
    destruct (put_row a i row (cells, free)) as [cells' free'] eqn:Ep.
    destruct H as (H1 & _ & H2). auto.
  - rewrite map_length in Hok. pose proof (take_step a pg cells free i Hp Hok) as H.
    unfold take_row in *. destruct H as [H1 H2]. split; [exact H1|]. split; [exact H2|].
    rewrite map_app, firstn_map, skipn_map. reflexivity.
Qed.

Lemma bytes_initial a pg pg0 : initialize_page a pg = Ret pg0 -> page_is a pg0 [] (skipn 4 pg).
Proof.
  intros H. destruct (initialize_inv a pg pg0 H) as (A & B & C & D & L & _). apply pow2_true in A.
  unfold page_is. rewrite L. repeat split; try assumption; [constructor|].
  unfold initialize_page in H.
  destruct (4 <=? length pg) eqn:E1; [|discriminate].
  destruct (Z.of_nat (length pg) <=? 2 ^ 32 - 1)%Z eqn:E2; [|discriminate].
  destruct (align_nat (length pg) a) as [l| |]; try discriminate. cbn [bind] in H.
  destruct (l =? length pg); [|discriminate].
  assert (G : set_u32 (firstn 4 pg ++ skipn 4 pg) 0 (Z.of_nat 0) = Ret (words [0] ++ skipn 4 pg))
    by (apply set_first; rewrite firstn_length; lia).
  rewrite firstn_skipn in G. change (Z.of_nat 0) with 0%Z in G. rewrite G in H. injection H as <-.
  unfold page_bytes. cbn [length slots data map rev concat]. rewrite app_nil_r. reflexivity.
Qed.

Lemma bytes_run a len ops : forall pg cells free rows,
  page_is a pg cells free -> len = length pg -> legal len a (map fst cells) ops rows ->
  let '(cells', free') := fold_left (bytes_op a) ops (cells, free) in
  foldM (apply_op a) ops pg = Ret (page_bytes cells' free') /\
  page_is a (page_bytes cells' free') cells' free' /\ map fst cells' = rows.
Proof.
  induction ops as [|op ops IH]; intros pg cells free rows Hp Hl HL.
  - inversion HL; subst. cbn [fold_left foldM].
    assert (E : pg = page_bytes cells free) by apply Hp. rewrite <- E. auto.
  - inversion HL as [|? ? ? ? Hop Hrest]; subst.
    pose proof (bytes_step a pg cells free op Hp Hop) as H. cbn [fold_left foldM].
    destruct (bytes_op a (cells, free) op) as [cells1 free1].
    destruct H as (H1 & H2 & H3). rewrite <- H3 in Hrest. rewrite H1. cbn [bind].
    refine (IH _ cells1 free1 rows H2 _ Hrest).
    destruct (op_ok_step a pg (map fst cells) op (page_is_rep _ _ _ _ Hp) Hop) as (pg' & E & EL & _).
    rewrite H1 in E. injection E as <-. symmetry. exact EL.
Qed.

Lemma bytes_history a pg pg0 ops rows :
  initialize_page a pg = Ret pg0 -> legal (length pg) a [] ops rows ->
  let '(cells, free) := fold_left (bytes_op a) ops ([], skipn 4 pg) in
  foldM (apply_op a) ops pg0 = Ret (page_bytes cells free) /\
  page_is a (page_bytes cells free) cells free /\ map fst cells = rows.
Proof.
  intros Hi HL. apply (bytes_run a (length pg) ops pg0 [] (skipn 4 pg) rows).
  - apply bytes_initial. exact Hi.
  - destruct (initialize_inv a pg pg0 Hi) as (_ & _ & _ & _ & L & _). congruence.
  - exact HL.
Qed.

Lemma holds_bytes a pg rows : holds a pg rows ->
  exists cells free, page_is a pg cells free /\ map fst cells = rows.
Proof.
  intros (pgi & pg0 & ops & Hi & HL & Hr). pose proof (bytes_history a pgi pg0 ops rows Hi HL) as H.
  destruct (fold_left (bytes_op a) ops ([], skipn 4 pgi)) as [cells free]. destruct H as (H1 & H2 & H3).
  rewrite Hr in H1. injection H1 as ->. exists cells, free. auto.
Qed.

(** ** What the rows determine *)

Lemma pad_length a c : 0 < a -> padded a c -> length (snd c) = pad a (fst c).
Proof.
  intros Ha H. pose proof (padded_align a c Ha H) as E. unfold cell_bytes in E. rewrite app_length in E.
  unfold pad. lia.
Qed.

Lemma slots_same a cs1 : forall cs2 top, 0 < a -> Forall (padded a) cs1 -> Forall (padded a) cs2 ->
  map fst cs1 = map fst cs2 -> slots top cs1 = slots top cs2.
Proof.
  induction cs1 as [|c1 cs1 IH]; intros [|c2 cs2] top Ha F1 F2 E; try discriminate; [reflexivity|].
  cbn [map] in E. assert (E1 : fst c1 = fst c2) by congruence. assert (E2 : map fst cs1 = map fst cs2) by congruence.
  inversion F1; inversion F2; subst. cbn [slots].
  assert (P : length (snd c1) = length (snd c2)) by (rewrite !(pad_length a) by assumption; congruence).
  assert (Q : length (cell_bytes c1) = length (cell_bytes c2))
    by (unfold cell_bytes; rewrite !app_length, E1, P; reflexivity).
  rewrite P, Q. f_equal. apply IH; assumption.
Qed.

Lemma table_same a pg1 pg2 rows : holds a pg1 rows -> holds a pg2 rows -> length pg1 = length pg2 ->
  firstn (4 * (length rows + 1)) pg1 = firstn (4 * (length rows + 1)) pg2 /\
  forall i row, nth_error rows i = Some row -> exists o,
    slice pg1 o (length row) = row /\ slice pg2 o (length row) = row /\
    o + length row <= length pg1 /\ 4 * (length rows + 1) <= o.
Proof.
  intros H1 H2 HL. pose proof (holds_rep _ _ _ H1) as R1. pose proof (holds_rep _ _ _ H2) as R2.
  split.
  - destruct (holds_bytes _ _ _ H1) as (cs1 & f1 & P1 & M1). destruct (holds_bytes _ _ _ H2) as (cs2 & f2 & P2 & M2).
    assert (Ha : 0 < a) by (apply pow2_pos, pow2_true, P1).
    assert (HT : forall cs f pg, page_is a pg cs f -> map fst cs = rows ->
              firstn (4 * (length rows + 1)) pg = words (length cs :: slots (length pg) cs)).
    { intros cs f pg (_ & _ & _ & _ & E) M. rewrite E at 1. unfold page_bytes.
      rewrite <- extent_length, <- E.
      rewrite firstn_app, firstn_all2; rewrite words_length; cbn [length]; rewrite slots_length, <- M, map_length; [|lia].
      replace (4 * (length cs + 1) - 4 * S (length cs)) with 0 by lia. apply app_nil_r. }
    rewrite (HT cs1 f1 pg1 P1 M1), (HT cs2 f2 pg2 P2 M2), HL.
    rewrite (slots_same a cs1 cs2) by (try exact Ha; try apply P1; try apply P2; congruence).
    rewrite <- (map_length fst cs1), <- (map_length fst cs2), M1, M2. reflexivity.
  - intros i row Hi. exists (base a (length pg1) rows (S i)).
    split; [apply (rep_data _ _ _ R1 i row Hi)|]. split; [rewrite HL; apply (rep_data _ _ _ R2 i row Hi)|].
    pose proof (rep_base_pad R1 i row Hi) as [_ Hb].
    pose proof (stored_firstn_total a rows (S i)). pose proof (rep_space _ _ _ R1).
    assert (base a (length pg1) rows i <= length pg1) by (unfold base; lia).
    unfold base in *. lia.
Qed.

(** ** Removed rows stay on the page *)

Lemma remove_last_bytes a pg rows row : holds a pg (rows ++ [row]) ->
  exists pg', remove_row a pg (length rows) = Ret pg' /\ holds a pg' rows /\ skipn 4 pg' = skipn 4 pg.
Proof.
  intros H. pose proof (holds_rep _ _ _ H) as R.
  destruct (holds_step a pg _ (OpRemove (length rows)) H) as (pg' & E & EL & Hh).
  { cbn [op_ok]. rewrite app_length. cbn. lia. }
  cbn [apply_op] in E. exists pg'. split; [exact E|]. split.
  - cbn [spec_op] in Hh. rewrite firstn_app, Nat.sub_diag, firstn_all, skipn_all2 in Hh by (rewrite app_length; cbn; lia).
    cbn [firstn] in Hh. rewrite !app_nil_r in Hh. exact Hh.
  - unfold remove_row in E. rewrite (rep_num_rows R) in E. cbn [bind] in E.
    rewrite app_length in E. cbn [length] in E.
    replace (length rows <? length rows + 1) with true in E by lia.
    replace (length rows <? length rows + 1 - 1) with false in E by lia.
    unfold set_num_rows in E. pose proof (rep_min _ _ _ R) as Hm.
    rewrite set_u32_ok in E by lia.
    assert (E' : pg' = write pg 0 (le_bytes 4 (Z.of_nat (length rows + 1 - 1)))) by congruence.
    rewrite E'. unfold write. rewrite le_bytes_length. cbn [firstn app Nat.add].
    rewrite (skipn_app 4 (le_bytes 4 _)), le_bytes_length, Nat.sub_diag.
    rewrite (skipn_all2 (le_bytes 4 _)) by (rewrite le_bytes_length; lia). reflexivity.
Qed.
