(** * Headers of volumes and files *)

From Verif Require Import Base BaseFacts UtilModel StorageModel StorageSpec StorageProofs.
Local Open Scope Z_scope.

Lemma number_val l : fold_right (fun b v => b2z b + 256 * v) 0 l = le_val l.
Proof. induction l as [|b l IH]; cbn [fold_right le_val]; [reflexivity|rewrite IH; reflexivity]. Qed.

Lemma number_skip (a l : list byte) off n k : length a = k -> number_at (a ++ l) (k + off) n = number_at l off n.
Proof.
  intros <-. unfold number_at. rewrite skipn_app, skipn_all2 by lia. replace (length a + off - length a)%nat with off by lia. reflexivity.
Qed.

Lemma number_here n z l : 0 <= z < 256 ^ Z.of_nat n -> number_at (le_bytes n z ++ l) 0 n = z.
Proof.
  intros H. unfold number_at. rewrite number_val. cbn [skipn]. rewrite firstn_app, le_bytes_length, Nat.sub_diag, firstn_O, app_nil_r.
  rewrite firstn_all2 by (rewrite le_bytes_length; lia). apply le_val_le_bytes_small. exact H.
Qed.

Lemma number_next k z (l : list byte) off n : number_at (le_bytes k z ++ l) (k + off) n = number_at l off n.
Proof. apply number_skip, le_bytes_length. Qed.

Lemma volume_header_ok uuid pad off prm : length uuid = 16%nat -> length pad = 4%nat ->
  0 <= volume_size prm < 2 ^ 64 -> 0 <= off < 2 ^ 64 -> 0 <= log_block_size prm < 2 ^ 16 -> 0 <= log_file_header_size prm < 2 ^ 16 ->
  is_volume_header (volume_header_bytes uuid pad off prm) uuid off prm.
Proof.
  intros Hu Hp H1 H2 H3 H4. unfold is_volume_header, volume_header_bytes.
  split; [rewrite !app_length, !le_bytes_length, Hu, Hp; reflexivity|].
  split; [apply number_here; cbn [Z.of_nat Pos.of_succ_nat Pos.succ]; lia|].
  split; [apply (eq_trans (number_next 4 _ _ 0 4)); apply number_here; cbn [Z.of_nat Pos.of_succ_nat Pos.succ]; lia|].
  split. { rewrite app_assoc, skipn_app, skipn_all2 by (rewrite app_length, !le_bytes_length; lia).
           rewrite app_length, !le_bytes_length. cbn [Nat.add Nat.sub skipn app].
           rewrite firstn_app, Hu, Nat.sub_diag, firstn_O, app_nil_r. apply firstn_all2. lia. }
  assert (N : forall l k n, number_at (le_bytes 4 0xCA78 ++ le_bytes 4 0x0100 ++ uuid ++ l) (24 + k) n = number_at l k n).
  { intros l k n. apply (eq_trans (number_next 4 _ _ (20 + k) n)). apply (eq_trans (number_next 4 _ _ (16 + k) n)).
    apply number_skip; exact Hu. }
  split; [apply (eq_trans (N _ 0%nat 8%nat)); apply number_here; cbn [Z.of_nat Pos.of_succ_nat Pos.succ]; lia|].
  split; [apply (eq_trans (N _ 8%nat 8%nat)); apply (eq_trans (number_next 8 _ _ 0 8)); apply number_here; cbn [Z.of_nat Pos.of_succ_nat Pos.succ]; lia|].
  split; [apply (eq_trans (N _ 16%nat 2%nat)); apply (eq_trans (number_next 8 _ _ 8 2)); apply (eq_trans (number_next 8 _ _ 0 2));
          apply number_here; cbn [Z.of_nat Pos.of_succ_nat Pos.succ]; lia|].
  apply (eq_trans (N _ 18%nat 2%nat)); apply (eq_trans (number_next 8 _ _ 10 2)); apply (eq_trans (number_next 8 _ _ 2 2));
  apply (eq_trans (number_next 2 _ _ 0 2)); apply number_here; cbn [Z.of_nat Pos.of_succ_nat Pos.succ]; lia.
Qed.

Lemma file_header_ok t allocated used last pad : length pad = 4%nat -> 0 <= t < 2 ^ 64 ->
  0 <= allocated < 2 ^ 32 -> 0 <= used < 2 ^ 32 -> 0 <= last < 2 ^ 32 ->
  is_file_header (file_header_bytes t allocated used last pad) t t allocated used last.
Proof.
  intros Hp H1 H2 H3 H4. unfold is_file_header, file_header_bytes.
  split; [rewrite !app_length, !le_bytes_length, Hp; reflexivity|].
  split; [apply number_here; cbn [Z.of_nat Pos.of_succ_nat Pos.succ]; lia|].
  split; [apply (eq_trans (number_next 4 _ _ 0 4)); apply number_here; cbn [Z.of_nat Pos.of_succ_nat Pos.succ]; lia|].
  split; [apply (eq_trans (number_next 4 _ _ 4 8)); apply (eq_trans (number_next 4 _ _ 0 8)); apply number_here; cbn [Z.of_nat Pos.of_succ_nat Pos.succ]; lia|].
  split; [apply (eq_trans (number_next 4 _ _ 12 8)); apply (eq_trans (number_next 4 _ _ 8 8)); apply (eq_trans (number_next 8 _ _ 0 8));
          apply number_here; cbn [Z.of_nat Pos.of_succ_nat Pos.succ]; lia|].
  split; [apply (eq_trans (number_next 4 _ _ 20 4)); apply (eq_trans (number_next 4 _ _ 16 4)); apply (eq_trans (number_next 8 _ _ 8 4));
          apply (eq_trans (number_next 8 _ _ 0 4)); apply number_here; cbn [Z.of_nat Pos.of_succ_nat Pos.succ]; lia|].
  split; [apply (eq_trans (number_next 4 _ _ 24 4)); apply (eq_trans (number_next 4 _ _ 20 4)); apply (eq_trans (number_next 8 _ _ 12 4));
          apply (eq_trans (number_next 8 _ _ 4 4)); apply (eq_trans (number_next 4 _ _ 0 4)); apply number_here; cbn [Z.of_nat Pos.of_succ_nat Pos.succ]; lia|].
  apply (eq_trans (number_next 4 _ _ 28 4)); apply (eq_trans (number_next 4 _ _ 24 4)); apply (eq_trans (number_next 8 _ _ 16 4));
  apply (eq_trans (number_next 8 _ _ 8 4)); apply (eq_trans (number_next 4 _ _ 4 4)); apply (eq_trans (number_next 4 _ _ 0 4));
  apply number_here; cbn [Z.of_nat Pos.of_succ_nat Pos.succ]; lia.
Qed.

(** ** Timestamps *)

Lemma land_mask n : 0 <= n -> (Z.land n 0xC000 =? 0) = ((n / 2 ^ 14) mod 4 =? 0).
Proof.
  intros Hn. change 0xC000 with (Z.shiftl 3 14). rewrite Z.shiftl_mul_pow2 by lia.
  assert (E : Z.land n (3 * 2 ^ 14) = Z.shiftl ((n / 2 ^ 14) mod 4) 14).
  { rewrite <- Z.shiftl_mul_pow2 by lia. apply Z.bits_inj'. intros k Hk. rewrite Z.land_spec, !Z.shiftl_spec by lia.
    change 4 with (2 ^ 2). rewrite <- Z.land_ones by lia. destruct (Z.ltb_spec k 14).
    - rewrite !(Z.testbit_neg_r _ (k - 14)) by lia. apply andb_false_r.
    - rewrite Z.land_spec, Z.div_pow2_bits by lia. replace (k - 14 + 14) with k by lia. reflexivity. }
  rewrite E, Z.shiftl_mul_pow2 by lia. pose proof (Z.mod_pos_bound (n / 2 ^ 14) 4). 
  destruct (Z.eqb_spec ((n / 2 ^ 14) mod 4 * 2 ^ 14) 0), (Z.eqb_spec ((n / 2 ^ 14) mod 4) 0); lia.
Qed.

Lemma timestamp_defined seconds nanos : 0 <= nanos ->
  (file_timestamp seconds nanos = Panic <-> (nanos / 2 ^ 14) mod 4 <> 0).
Proof.
  intros Hn. unfold file_timestamp. rewrite land_mask by exact Hn. destruct (Z.eqb_spec ((nanos / 2 ^ 14) mod 4) 0) as [E|E].
  - split; [discriminate|]. intros N. contradiction.
  - split; auto.
Qed.

Lemma timestamp_value seconds nanos t : 0 <= seconds < 2 ^ 48 -> 0 <= nanos < 2 ^ 30 -> file_timestamp seconds nanos = Ret t ->
  t = seconds * 2 ^ 16 + nanos / 2 ^ 14.
Proof.
  intros Hs Hn. unfold file_timestamp. destruct (_ =? 0); [|discriminate]. intros E. apply (f_equal (fun o => match o with Ret a => a | _ => 0 end)) in E. subst t.
  assert (Hq : 0 <= nanos / 2 ^ 14 < 2 ^ 16).
  { split; [apply Z.div_pos; lia|]. apply Z.div_lt_upper_bound; lia. }
  rewrite Z.shiftl_mul_pow2 by lia. rewrite (Z.mod_small (seconds * 2 ^ 16)) by lia. rewrite Z.shiftr_div_pow2 by lia.
  symmetry. rewrite <- Z.lxor_lor.
  - apply Z.add_nocarry_lxor. apply Z.bits_inj'. intros k Hk. rewrite Z.land_spec, Z.bits_0.
    destruct (Z.ltb_spec k 16).
    + rewrite Z.mul_pow2_bits_low by lia. reflexivity.
    + rewrite <- (Z.mod_small (nanos / 2 ^ 14) (2 ^ 16)) by lia. rewrite Z.mod_pow2_bits_high by lia. apply andb_false_r.
  - apply Z.bits_inj'. intros k Hk. rewrite Z.land_spec, Z.bits_0.
    destruct (Z.ltb_spec k 16).
    + rewrite Z.mul_pow2_bits_low by lia. reflexivity.
    + rewrite <- (Z.mod_small (nanos / 2 ^ 14) (2 ^ 16)) by lia. rewrite Z.mod_pow2_bits_high by lia. apply andb_false_r.
Qed.

Lemma timestamp_order s1 n1 t1 s2 n2 t2 : 0 <= s1 < 2 ^ 48 -> 0 <= s2 < 2 ^ 48 -> 0 <= n1 < 2 ^ 30 -> 0 <= n2 < 2 ^ 30 ->
  file_timestamp s1 n1 = Ret t1 -> file_timestamp s2 n2 = Ret t2 ->
  (s1 < s2 \/ s1 = s2 /\ n1 <= n2 -> t1 <= t2) /\ (s1 < s2 -> t1 < t2).
Proof.
  intros. assert (t1 = s1 * 2 ^ 16 + n1 / 2 ^ 14) by (apply timestamp_value; assumption).
  assert (t2 = s2 * 2 ^ 16 + n2 / 2 ^ 14) by (apply timestamp_value; assumption).
  assert (0 <= n1 / 2 ^ 14 < 2 ^ 16) by (split; [apply Z.div_pos; lia|apply Z.div_lt_upper_bound; lia]).
  assert (0 <= n2 / 2 ^ 14 < 2 ^ 16) by (split; [apply Z.div_pos; lia|apply Z.div_lt_upper_bound; lia]).
  split; [|lia]. intros [L|[-> L]]; [lia|]. pose proof (Z.div_le_mono n1 n2 (2 ^ 14)). lia.
Qed.

(** ** What creation leaves behind *)

Lemma create_registers p e rest m prm :
  0 <= m_next m < 2 ^ 8 -> Z.of_nat (length (m_volumes m)) = m_next m ->
  let m' := fst (create p e rest m prm) in
  ((exists g, geometry_of p prm = Ret g) /\ e_open e = true /\ e_set_len e = true /\ m_next m < 255 ->
     m_volumes m' = m_volumes m ++ [prm] /\ m_next m' = m_next m + 1) /\
  (~ ((exists g, geometry_of p prm = Ret g) /\ e_open e = true /\ e_set_len e = true /\ m_next m < 255) -> m' = m).
Proof.
  intros Hn Hl. unfold create. destruct (geometry_of p prm) as [g| |].
  2,3: cbn; split; [intros [[g G] _]; discriminate|reflexivity].
  destruct (e_open e); cbn [negb]; [|cbn; split; [intros (_ & H & _); discriminate|reflexivity]].
  destruct (e_set_len e); cbn [negb]; [|cbn; split; [intros (_ & _ & H & _); discriminate|reflexivity]].
  unfold next_volume, wadd.
  destruct (Z.ltb_spec (m_next m + 1) (2 ^ 8)) as [L|L].
  - cbn [bind]. replace (m_next m + 1 <? m_next m) with false by lia. cbv beta iota. cbn [m_volumes m_next m_pool].
    rewrite Hl, Z.eqb_refl. cbn [negb fst m_volumes m_next]. split; [auto|]. intros N. destruct N. repeat split; eauto. lia.
  - split; [intros (_ & _ & _ & H); lia|]. intros _. destruct p; [reflexivity|]. cbn [bind].
    replace ((m_next m + 1) mod 2 ^ 8) with 0 by (replace (m_next m + 1) with (2 ^ 8) by lia; reflexivity).
    replace (0 <? m_next m) with true by lia. reflexivity.
Qed.

Lemma create_writes p e rest m prm g page :
  0 <= m_next m < 255 -> Z.of_nat (length (m_volumes m)) = m_next m ->
  geometry_of p prm = Ret g -> e_open e = true -> e_set_len e = true ->
  length (e_uuid e) = 16%nat -> length (e_pad e) = 4%nat ->
  e_access e (m_next m * 2 ^ 56) = Ret page -> length page = 48%nat ->
  snd (create p e rest (set_buffer_pool m) prm) =
    (_ <- rest (fst (create p e rest (set_buffer_pool m) prm)) (m_next m) g
           (volume_header_bytes (e_uuid e) (e_pad e) (g_file_table_offset g) prm) ;;
     Ret (Ok (m_next m))) /\
  (m_pool m = false -> snd (create p e rest m prm) = Panic).
Proof.
  intros Hn Hl Hg Ho Hs Hu Hp Ha Hpg.
  assert (Loc : location_new (m_next m) 0 = Ret (m_next m * 2 ^ 56)).
  { unfold location_new. rewrite Z.land_0_l. cbn [Z.eqb]. rewrite Z.lor_0_r. f_equal. change location_shift_bits with 56.
    rewrite Z.shiftl_mul_pow2 by lia. apply Z.mod_small. lia. }
  unfold create. rewrite Hg, Ho, Hs. cbn [negb]. unfold next_volume, wadd, set_buffer_pool. cbn [m_next m_volumes m_pool].
  replace (m_next m + 1 <? 2 ^ 8) with true by lia. cbn [bind].
  replace (m_next m + 1 <? m_next m) with false by lia. cbv beta iota. cbn [m_volumes m_next m_pool].
  rewrite Hl, Z.eqb_refl. cbn [negb fst snd m_volumes m_next m_pool]. rewrite Loc. cbn [bind]. rewrite Ha. cbn [bind]. rewrite Hpg.
  split; [|intros ->; reflexivity].
  change (48 <=? Z.of_nat 48) with true. cbv iota.
  set (h := volume_header_bytes _ _ _ _).
  assert (Hh : length h = 48%nat) by (unfold h, volume_header_bytes; rewrite !app_length, !le_bytes_length, Hu, Hp; reflexivity).
  unfold copy_range. rewrite Hpg, Hh. cbn [Nat.leb Nat.sub Nat.eqb andb]. cbn [bind]. unfold write. rewrite Hh.
  cbn [firstn app]. rewrite skipn_all2 by (rewrite Hpg; lia). rewrite app_nil_r. reflexivity.
Qed.

Lemma table_offset p prm g : 0 <= log_block_size prm < 64 -> geometry_of p prm = Ret g -> g_file_table_offset g = 2 ^ log_block_size prm.
Proof.
  intros H. unfold geometry_of.
  assert (E : wshl p 64 1 (log_block_size prm) = Ret (2 ^ log_block_size prm)).
  { unfold wshl. replace (log_block_size prm <? 64) with true by lia. rewrite Z.shiftl_mul_pow2, Z.mul_1_l by lia.
    rewrite Z.mod_small; [reflexivity|]. split; [apply Z.pow_nonneg; lia|apply Z.pow_lt_mono_r; lia]. }
  rewrite E. cbn [bind]. intros G.
  repeat match type of G with
         | bind ?o _ = _ => destruct o; cbn [bind] in G; [|discriminate|discriminate]
         | (check ?b ;; _) = _ => destruct b; [|discriminate]
         end.
  injection G as <-. reflexivity.
Qed.

Lemma create_header p e rest m prm g page :
  0 <= m_next m < 255 -> Z.of_nat (length (m_volumes m)) = m_next m ->
  0 <= volume_size prm < 2 ^ 64 -> 0 <= log_block_size prm < 64 -> 0 <= log_file_header_size prm < 2 ^ 16 ->
  geometry_of p prm = Ret g -> e_open e = true -> e_set_len e = true ->
  length (e_uuid e) = 16%nat -> length (e_pad e) = 4%nat ->
  e_access e (m_next m * 2 ^ 56) = Ret page -> length page = 48%nat ->
  (exists header m', is_volume_header header (e_uuid e) (2 ^ log_block_size prm) prm /\
     snd (create p e rest (set_buffer_pool m) prm) = (_ <- rest m' (m_next m) g header ;; Ret (Ok (m_next m)))) /\
  (m_pool m = false -> snd (create p e rest m prm) = Panic).
Proof.
  intros Hn Hl H1 H2 H3 Hg Ho Hs Hu Hp Ha Hpg. destruct (create_writes p e rest m prm g page) as [E N]; try assumption.
  split; [|exact N]. eexists _, _. split; [|exact E]. rewrite <- (table_offset _ _ _ H2 Hg). apply volume_header_ok; try assumption.
  - rewrite (table_offset _ _ _ H2 Hg). split; [apply Z.pow_nonneg; lia|apply Z.pow_lt_mono_r; lia].
  - lia.
Qed.

Lemma fresh_buffers n : Forall (fun b => b_access b = None /\ b_dirty b = false /\ b_submitted b = false) (repeat buffer_default n) /\
  length (repeat buffer_default n) = n.
Proof. split; [|apply repeat_length]. apply Forall_forall. intros b H. apply repeat_spec in H as ->. auto. Qed.

Lemma pool_fresh map_anon bs n :
  is_pow2 bs = true -> 0 < n < nil_index -> map_anon (bs * n mod 2 ^ 64) = true ->
  exists m, pool_new Release map_anon bs n = Ret (Ok (m, bs * n mod 2 ^ 64)) /\
    represents [p_available m; p_in_use m; p_dirty m] (p_links m) [seq 0 (Z.to_nat n); []; []] /\
    length (p_links m) = Z.to_nat n /\ length (p_buffers m) = Z.to_nat n /\
    Forall (fun b => b_access b = None /\ b_dirty b = false /\ b_submitted b = false) (p_buffers m) /\
    p_mapped m = [] /\ p_locks m = [].
Proof.
  intros H1 H2 H3. destruct (pool_release map_anon bs n H1 H2 H3) as (m & E & R & L & B & M & K). exists m.
  destruct (fresh_buffers (Z.to_nat n)) as [F1 F2]. rewrite B. auto 10.
Qed.
