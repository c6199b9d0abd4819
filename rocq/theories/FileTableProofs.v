(** * Proofs about the files, the mirror and the stored bitmap of a new volume *)

From Coq Require Import ZifyBool ZifyNat ZifyN.
From Verif Require Import Base BaseFacts UtilModel UtilProofs StorageModel StorageSpec StorageProofs VolumeProofs.
From Verif Require Import FileTableModel FileTableSpec.
From Verif Require FormatSpec FormatBits.
Local Open Scope Z_scope.
Ltac Zify.zify_post_hook ::= Z.div_mod_to_equations.

(** ** The attributes *)

Lemma align_offset p v : 0 <= v < 2 ^ 60 -> align_w p 64 v 2 = Ret ((v + 1) / 2 * 2).
Proof.
  intros H. change (align_w p 64 v 2) with (align_w p 64 v (2 ^ 1)). rewrite align_w_value by lia. f_equal. lia.
Qed.

Lemma attributes_cases p buffer name size ext : Z.of_nat (length buffer) < 2 ^ 50 -> Z.of_nat (length name) < 2 ^ 50 ->
  attributes p buffer name size ext =
  if (length buffer =? 41)%nat || ((length buffer =? 42)%nat && (length name <=? 255)%nat) then Undef else Panic.
Proof.
  intros Hb Hn. unfold attributes. rewrite (align_offset p 40) by lia. change ((40 + 1) / 2 * 2) with 40. cbn [bind].
  destruct (Z.ltb_spec 40 (Z.of_nat (length buffer))) as [L|L].
  2: { replace (length buffer =? 41)%nat with false by lia. replace (length buffer =? 42)%nat with false by lia. reflexivity. }
  unfold poke at 1. rewrite le_bytes_length.
  destruct (Z.leb_spec (40 + Z.of_nat 2) (Z.of_nat (length buffer))) as [L1|L1]; cbn [bind].
  2: { replace (length buffer =? 41)%nat with true by lia. reflexivity. }
  replace (length buffer =? 41)%nat with false by lia. cbn [orb].
  destruct (Z.leb_spec (Z.of_nat (length name)) 255) as [N|N].
  2: { replace (length name <=? 255)%nat with false by lia. now rewrite andb_false_r. }
  replace (length name <=? 255)%nat with true by lia. rewrite andb_true_r.
  set (b1 := write buffer _ _).
  assert (B1 : length b1 = length buffer) by (unfold b1; rewrite write_length; rewrite ?le_bytes_length; lia).
  unfold poke at 1. rewrite le_bytes_length, B1.
  destruct (Z.leb_spec (40 + 2 + Z.of_nat 1) (Z.of_nat (length buffer))) as [L2|L2]; cbn [bind].
  2: { replace (length buffer =? 42)%nat with true by lia. reflexivity. }
  replace (length buffer =? 42)%nat with false by lia.
  set (b2 := write b1 _ _).
  assert (B2 : length b2 = length buffer) by (unfold b2; rewrite write_length; rewrite ?le_bytes_length; lia).
  unfold copy_range. rewrite B2.
  destruct (((Z.to_nat (40 + 3) <=? length buffer)%nat && (length buffer <=? length buffer)%nat) &&
            (length buffer - Z.to_nat (40 + 3) =? length name)%nat) eqn:C; cbn [bind]; [|reflexivity].
  rewrite align_offset by lia. cbn [bind].
  match goal with |- context [if ?b then _ else Panic] => replace b with false by lia end. reflexivity.
Qed.

(** ** The whole of [create] *)

Lemma create_rest_panics p access seconds nanos pad st prm m index g page :
  0 <= log_file_header_size prm -> length pad = 4%nat -> (forall l, access l <> Undef) ->
  create_rest p access seconds nanos pad st prm m index g page = Panic.
Proof.
  intros Hl Hp Ha. unfold create_rest, reserved_files. cbn [app foldM]. unfold init_file at 1.
  rewrite init_file_header_panics by assumption. reflexivity.
Qed.

Lemma create_whole_panics p e seconds nanos pad st m prm :
  0 <= log_file_header_size prm -> length pad = 4%nat -> (forall l, e_access e l <> Undef) ->
  snd (create_whole p e seconds nanos pad st m prm) = Panic \/
  snd (create_whole p e seconds nanos pad st m prm) = Ret (Err tt).
Proof.
  intros Hl Hp Ha. unfold create_whole, create.
  destruct (geometry_of p prm) as [g| |] eqn:G; [|now left|now apply geometry_defined in G].
  destruct (e_open e); cbn [negb]; [|now right]. destruct (e_set_len e); cbn [negb]; [|now right].
  destruct (next_volume p m) as [[m1 [index|]]| |] eqn:V; [|now right|now left|].
  2: { unfold next_volume in V. destruct (wadd p 8 (m_next m) 1) eqn:W; cbn [bind] in V; try discriminate.
       now apply wadd_defined in W. }
  destruct (negb _); [now left|]. cbn [snd m_pool]. destruct (m_pool m1); [|now left].
  unfold location_new. change (Z.land 0 location_offset_mask =? 0) with true. cbn [bind].
  match goal with |- context [e_access e ?l] => destruct (e_access e l) as [page| |] eqn:A end; cbn [bind];
    [|now left|exfalso; eapply Ha; eauto].
  destruct (48 <=? Z.of_nat (length page)); [|now left].
  unfold copy_range at 1 2. match goal with |- context [if ?b then Ret (write _ _ _) else Panic] => destruct b end; cbn [bind]; [|now left].
  rewrite create_rest_panics by assumption. now left.
Qed.

(** ** The reserved files *)

Lemma reserved_extents prm g :
  0 <= log_block_size prm -> 0 <= log_file_header_size prm -> 0 <= volume_size prm ->
  geometry_of Debug prm = Ret g -> g_total_allocated g < 2 ^ 32 ->
  Forall (fun f => match f_extent f with
                   | Some x => holds_just (2 ^ log_block_size prm) (f_size f) (x_blocks x)
                   | None => f_size f = 0
                   end) (reserved_files g).
Proof.
  intros Hb Hf Hv H T. destruct (geometry_facts prm g Hb Hf Hv H)
    as (A & B & C & D & F & G & J & K & L & M & U & N & O & _).
  assert (0 < 2 ^ log_block_size prm) by (apply Z.pow_pos_nonneg; lia).
  unfold reserved_files, as_u32. rewrite (Z.mod_small (g_file_table_blocks g)) by lia.
  rewrite (Z.mod_small (g_bitmap_blocks g)) by lia. apply Forall_app. split.
  { repeat apply Forall_cons; try apply Forall_nil; cbn [f_extent f_size x_blocks]; unfold holds_just; try lia. }
  apply Forall_forall. intros f X. apply in_map_iff in X as [i [<- _]]. reflexivity.
Qed.

Lemma extent_cases prm g f x :
  0 <= log_block_size prm -> 0 <= log_file_header_size prm -> 0 <= volume_size prm ->
  geometry_of Debug prm = Ret g -> g_total_allocated g < 2 ^ 32 ->
  In f (reserved_files g) -> f_extent f = Some x ->
  let t := g_file_table_blocks g in
  f_index f = 0 /\ x = {| x_block := 1; x_blocks := t |} \/
  f_index f = 1 /\ x = {| x_block := 1 + t; x_blocks := t |} \/
  f_index f = 2 /\ x = {| x_block := 1 + t + t / 2 ^ log_block_size prm; x_blocks := g_bitmap_blocks g |} \/
  f_index f = 4 /\ x = {| x_block := 0; x_blocks := 1 |}.
Proof.
  intros Hb Hf Hv H T I X t. destruct (geometry_facts prm g Hb Hf Hv H)
    as (A & B & C & D & F & G & J & K & L & M & U & N & O & _).
  fold t in D, F, G, J, U.
  assert (P : 0 < 2 ^ log_block_size prm) by (apply Z.pow_pos_nonneg; lia).
  set (bs := 2 ^ log_block_size prm) in *.
  assert (E1 : g_file_table_offset g / bs = 1) by (rewrite B; apply Z.div_same; lia).
  assert (E2 : g_mirror_offset g / bs = 1 + t).
  { rewrite G. replace (bs + t * bs) with ((1 + t) * bs) by lia. apply Z.div_mul. lia. }
  assert (E3 : g_bitmap_offset g / bs = 1 + t + t / bs).
  { rewrite J. replace (bs + t * bs + t) with (t + (1 + t) * bs) by lia. rewrite Z.div_add by lia. lia. }
  assert (E4 : 0 <= t / bs <= t).
  { split; [apply Z.div_pos; lia|apply Z.div_le_upper_bound; nia]. }
  unfold reserved_files, as_u32 in I. fold t in I. rewrite A, E1, E2, E3 in I.
  apply in_app_or in I as [I|I].
  2: { apply in_map_iff in I as [i [<- _]]. discriminate X. }
  clear - I X E4 D U O T. set (q := t / bs) in *. clearbody q.
  rewrite !Z.mod_small in I by lia.
  cbn [In] in I. destruct I as [<-|[<-|[<-|[<-|[<-|[]]]]]]; cbn [f_index f_extent] in X |- *; try discriminate X;
    injection X as <-; tauto.
Qed.

Lemma extents_shared prm g :
  0 <= log_block_size prm -> 0 <= log_file_header_size prm -> 0 <= volume_size prm ->
  geometry_of Debug prm = Ret g -> g_total_allocated g < 2 ^ 32 ->
  forall f f' x x', In f (reserved_files g) -> In f' (reserved_files g) -> f_index f < f_index f' ->
  f_extent f = Some x -> f_extent f' = Some x' ->
  (shares_block x x' <-> f_index f = 1 /\ f_index f' = 2 /\ 1 <= log_block_size prm /\ 0 < volume_size prm).
Proof.
  intros Hb Hf Hv H T f f' x x' I I' Q X X'.
  pose proof (extent_cases prm g f x Hb Hf Hv H T I X) as Y.
  pose proof (extent_cases prm g f' x' Hb Hf Hv H T I' X') as Y'. cbv zeta in Y, Y'.
  destruct (geometry_facts prm g Hb Hf Hv H) as (A & B & C & D & F & G & J & K & L & M & U & N & O & _).
  assert (P : 0 < 2 ^ log_block_size prm) by (apply Z.pow_pos_nonneg; lia).
  assert (P1 : 1 <= log_block_size prm <-> 2 <= 2 ^ log_block_size prm).
  { split; intros R.
    - change 2 with (2 ^ 1) at 1. apply Z.pow_le_mono_r; lia.
    - destruct (Z.eq_dec (log_block_size prm) 0) as [Z0|]; [|lia]. rewrite Z0 in R. cbn in R. lia. }
  set (bs := 2 ^ log_block_size prm) in *. set (t := g_file_table_blocks g) in *.
  assert (E4 : 0 <= t / bs <= t).
  { split; [apply Z.div_pos; lia|apply Z.div_le_upper_bound; nia]. }
  assert (E5 : t / bs < t <-> 2 <= bs).
  { split; intros R.
    - destruct (Z.eq_dec bs 1) as [Z1|]; [|lia]. rewrite Z1, Z.div_1_r in R. lia.
    - apply Z.div_lt; lia. }
  assert (E6 : 0 < g_bitmap_blocks g <-> 0 < volume_size prm) by (rewrite K; nia).
  unfold shares_block.
  clear - Q Y Y' E4 E5 E6 P1 D O. set (q := t / bs) in *. clearbody q t bs.
  destruct Y as [[Y ->]|[[Y ->]|[[Y ->]|[Y ->]]]]; destruct Y' as [[Y' ->]|[[Y' ->]|[[Y' ->]|[Y' ->]]]];
    cbn [x_block x_blocks]; try lia;
    (split; [intros [b R]; lia|intros R; try lia]).
  exists (1 + t + q). lia.
Qed.

(** ** The mirror *)

Lemma place_inj index a b : place index a = place index b -> a = b.
Proof. unfold place. lia. Qed.

Lemma mirrored p index g bs t : 0 <= index < 2 ^ 8 -> 0 < bs -> g_block_size g = bs -> g_file_table_offset g = bs ->
  g_mirror_offset g = bs + t * bs -> bs + t * bs + t * bs <= 2 ^ 56 ->
  forall n i st, Z.of_nat (i + n) = t -> (forall l, Z.of_nat (length (st l)) = bs) ->
  exists st', foldM (mirror_block p index g) (seq i n) st = Ret st' /\
    (forall k, Z.of_nat i <= k < t -> st' (place index (bs + t * bs + k * bs)) = st (place index (bs + k * bs))) /\
    (forall l, (forall k, Z.of_nat i <= k < t -> l <> place index (bs + t * bs + k * bs)) -> st' l = st l).
Proof.
  intros Hi Hb A B C Q. induction n as [|n IH]; intros i st Hn Hl; cbn [seq foldM].
  - exists st. split; [reflexivity|]. split; [intros k Hk; lia|reflexivity].
  - assert (R : (Z.of_nat i + 1) * bs <= t * bs) by (apply Z.mul_le_mono_nonneg_r; lia).
    assert (0 <= Z.of_nat i * bs) by nia.
    unfold mirror_block at 1. rewrite A, B, C. unfold wmul, wadd.
    replace (Z.of_nat i * bs <? 2 ^ 64) with true by lia. cbn [bind].
    replace (bs + Z.of_nat i * bs <? 2 ^ 64) with true by lia. cbn [bind].
    rewrite location_value by lia. cbn [bind].
    replace (bs + t * bs + Z.of_nat i * bs <? 2 ^ 64) with true by lia. cbn [bind].
    rewrite location_value by lia. cbn [bind].
    change (index * 2 ^ 56 + (bs + t * bs + Z.of_nat i * bs)) with (place index (bs + t * bs + Z.of_nat i * bs)).
    change (index * 2 ^ 56 + (bs + Z.of_nat i * bs)) with (place index (bs + Z.of_nat i * bs)).
    set (d := place index (bs + t * bs + Z.of_nat i * bs)). set (s := place index (bs + Z.of_nat i * bs)).
    assert (Ls : length (st s) = length (st d)) by (pose proof (Hl s); pose proof (Hl d); lia).
    unfold copy_range. rewrite Ls, Nat.sub_0_r, Nat.eqb_refl, Nat.leb_refl. cbn [Nat.leb andb bind].
    unfold write. cbn [firstn app]. rewrite Nat.add_0_l, Ls, skipn_all, app_nil_r.
    destruct (IH (S i) (put_page st d (st s)) ltac:(lia)) as (st' & E & M & U).
    { intros l. unfold put_page. destruct (l =? d); apply Hl. }
    exists st'. split; [exact E|]. split.
    + intros k Hk. destruct (Z.eq_dec k (Z.of_nat i)) as [->|K].
      * fold d s. rewrite U. 2: { intros k Hk' Y. apply place_inj in Y. nia. }
        unfold put_page. now rewrite Z.eqb_refl.
      * rewrite M by lia. unfold put_page.
        destruct (Z.eqb_spec (place index (bs + k * bs)) d) as [Y|]; [|reflexivity].
        apply place_inj in Y. exfalso.
        assert (k * bs < t * bs) by (apply Z.mul_lt_mono_pos_r; lia). lia.
    + intros l W. rewrite U by (intros k Hk; apply W; lia). unfold put_page.
      destruct (Z.eqb_spec l d) as [Y|]; [|reflexivity]. now apply W in Y; [|lia].
Qed.

Lemma table_mirrored p index prm g st :
  0 <= index < 2 ^ 8 ->
  0 <= log_block_size prm -> 0 <= log_file_header_size prm -> 0 <= volume_size prm ->
  geometry_of Debug prm = Ret g ->
  let bs := 2 ^ log_block_size prm in
  let t := g_file_table_blocks g in
  g_mirror_offset g + t * bs <= 2 ^ 56 ->
  (forall l, Z.of_nat (length (st l)) = bs) ->
  exists st', mirror_table p index g st = Ret st' /\
    (forall k, 0 <= k < t ->
       st' (place index (g_mirror_offset g + k * bs)) = st (place index (g_file_table_offset g + k * bs))) /\
    untouched index (g_mirror_offset g) bs t st st'.
Proof.
  intros Hi Hb Hf Hv H bs t Q Hl.
  destruct (geometry_facts prm g Hb Hf Hv H) as (A & B & C & D & F & G & J & K & L & M & U & N & O & _).
  assert (P : 0 < bs) by (apply Z.pow_pos_nonneg; lia). fold bs in A, B, G. fold t in G.
  destruct (mirrored p index g bs t Hi P A B G ltac:(lia) (Z.to_nat t) 0 st ltac:(lia) Hl) as (st' & E & V & W).
  exists st'. split; [exact E|]. rewrite B, G. split; [intros k Hk; apply V; lia|].
  unfold untouched. exact W.
Qed.

(** ** The stored bitmap *)

Lemma words_stored p g : forall n i page b ws last,
  bitmap_block p (g_total_allocated g) (g_bitmap_bits g) n b = Ret (ws, last) ->
  length page = (16 * (i + n))%nat ->
  foldM (store_word p g) (seq i n) (page, b) = Ret (firstn (16 * i) page ++ concat (map (le_bytes 16) ws), last).
Proof.
  induction n as [|n IH]; intros i page b ws last H L; cbn [seq foldM bitmap_block] in *.
  - injection H as <- <-. cbn [map concat]. rewrite app_nil_r, firstn_all2 by lia. reflexivity.
  - unfold store_word at 1.
    destruct (bitmap_word p (g_total_allocated g) (g_bitmap_bits g) b) as [w| |]; cbn [bind] in *; try discriminate.
    destruct (wadd p 64 b 128) as [nb| |]; cbn [bind] in *; try discriminate.
    destruct (bitmap_block p (g_total_allocated g) (g_bitmap_bits g) n nb) as [[ws' last']| |] eqn:E; cbn [bind] in H;
      try discriminate.
    injection H as <- <-. unfold poke. rewrite le_bytes_length.
    replace (Z.of_nat i * 16 + Z.of_nat 16 <=? Z.of_nat (length page)) with true by lia. cbn [bind].
    replace (Z.to_nat (Z.of_nat i * 16)) with (16 * i)%nat by lia.
    rewrite (IH (S i) _ nb ws' last' E).
    2: { rewrite write_length; rewrite ?le_bytes_length; lia. }
    cbn [map concat]. unfold write.
    replace (16 * S i)%nat with (length (firstn (16 * i) page ++ le_bytes 16 w)) at 1
      by (rewrite app_length, firstn_length, le_bytes_length; lia).
    rewrite (app_assoc (firstn (16 * i) page)), firstn_app, Nat.sub_diag, firstn_all. cbn [firstn].
    rewrite app_nil_r, <- app_assoc. reflexivity.
Qed.

Lemma block_length p total bits : forall n b ws last, bitmap_block p total bits n b = Ret (ws, last) -> length ws = n.
Proof.
  induction n as [|n IH]; intros b ws last H; cbn [bitmap_block] in H; [injection H as <- <-; reflexivity|].
  apply bind_Ret_inv in H as [w [_ H]]. apply bind_Ret_inv in H as [nb [_ H]]. apply bind_Ret_inv in H as [[ws' l] [E H]].
  injection H as <- <-. cbn. f_equal. eapply IH, E.
Qed.

Lemma blocks_length p total bits words : forall n b bm, bitmap_blocks p total bits words n b = Ret bm ->
  length bm = n /\ Forall (fun ws => length ws = words) bm.
Proof.
  induction n as [|n IH]; intros b bm H; cbn [bitmap_blocks] in H; [injection H as <-; auto|].
  apply bind_Ret_inv in H as [[ws nb] [E H]]. apply bind_Ret_inv in H as [r [E2 H]]. injection H as <-.
  destruct (IH _ _ E2) as [A B]. split; [cbn; congruence|]. constructor; [eapply block_length, E|exact B].
Qed.

Lemma blocks_stored p index g bs words : 0 <= index < 2 ^ 8 -> 0 < bs -> g_block_size g = bs ->
  bs = 16 * Z.of_nat words -> 0 <= g_bitmap_offset g -> g_bitmap_offset g + g_bitmap_blocks g * bs <= 2 ^ 56 ->
  forall n i st b bm, Z.of_nat (i + n) = g_bitmap_blocks g -> (forall l, Z.of_nat (length (st l)) = bs) ->
  bitmap_blocks p (g_total_allocated g) (g_bitmap_bits g) words n b = Ret bm ->
  exists st' last, foldM (store_block p index g words) (seq i n) (st, b) = Ret (st', last) /\
    (forall k ws, nth_error bm k = Some ws ->
       st' (place index (g_bitmap_offset g + Z.of_nat (i + k) * bs)) = concat (map (le_bytes 16) ws)) /\
    (forall l, (forall k, Z.of_nat i <= k < g_bitmap_blocks g -> l <> place index (g_bitmap_offset g + k * bs)) ->
       st' l = st l).
Proof.
  intros Hi Hb A W O Q. induction n as [|n IH]; intros i st b bm Hn Hl H; cbn [seq foldM bitmap_blocks] in *.
  - injection H as <-. exists st, b. split; [reflexivity|]. split; [intros [|k] ws Hk; discriminate|reflexivity].
  - apply bind_Ret_inv in H as [[ws nb] [E H]]. apply bind_Ret_inv in H as [r [E2 H]]. injection H as <-.
    assert (R : (Z.of_nat i + 1) * bs <= g_bitmap_blocks g * bs) by (apply Z.mul_le_mono_nonneg_r; lia).
    assert (0 <= Z.of_nat i * bs) by nia.
    unfold store_block at 1. rewrite A. unfold wmul, wadd.
    replace (Z.of_nat i * bs <? 2 ^ 64) with true by lia. cbn [bind].
    replace (g_bitmap_offset g + Z.of_nat i * bs <? 2 ^ 64) with true by lia. cbn [bind].
    rewrite location_value by lia. cbn [bind].
    change (index * 2 ^ 56 + (g_bitmap_offset g + Z.of_nat i * bs)) with (place index (g_bitmap_offset g + Z.of_nat i * bs)).
    set (d := place index (g_bitmap_offset g + Z.of_nat i * bs)).
    rewrite (words_stored p g words 0 (st d) b ws nb E) by (pose proof (Hl d); lia). cbn [bind Nat.mul firstn app].
    pose proof (block_length _ _ _ _ _ _ _ E) as Lw.
    assert (Lc : length (concat (map (le_bytes 16) ws)) = (16 * words)%nat).
    { rewrite <- Lw. clear. induction ws as [|w ws IH]; [reflexivity|].
      cbn [map concat length]. rewrite app_length, le_bytes_length, IH. lia. }
    destruct (IH (S i) (put_page st d (concat (map (le_bytes 16) ws))) nb r ltac:(lia)) as (st' & last & E3 & M & U).
    { intros l. unfold put_page. destruct (l =? d); [rewrite Lc; lia|apply Hl]. }
    { exact E2. }
    exists st', last. split; [exact E3|]. split.
    + intros [|k] v Hk; cbn [nth_error] in Hk.
      * injection Hk as <-. rewrite Nat.add_0_r. fold d. rewrite U.
        2: { intros k Hk' Y. apply place_inj in Y. nia. }
        unfold put_page. now rewrite Z.eqb_refl.
      * replace (i + S k)%nat with (S i + k)%nat by lia. now apply M.
    + intros l Y. rewrite U by (intros k Hk; apply Y; lia). unfold put_page.
      destruct (Z.eqb_spec l d) as [X|]; [|reflexivity]. now apply Y in X; [|lia].
Qed.

(** Bits of a page of words. *)
Lemma bit_app a b x : FormatSpec.bit_of (a ++ b) x =
  if (x <? 8 * length a)%nat then FormatSpec.bit_of a x else FormatSpec.bit_of b (x - 8 * length a).
Proof.
  unfold FormatSpec.bit_of. destruct (Nat.ltb_spec x (8 * length a)) as [L|L].
  - rewrite nth_error_app1 by lia. reflexivity.
  - rewrite nth_error_app2 by lia.
    replace ((x - 8 * length a) / 8)%nat with (x / 8 - length a)%nat by lia.
    replace ((x - 8 * length a) mod 8)%nat with (x mod 8)%nat by lia. reflexivity.
Qed.

Lemma word_bits : forall ws x, FormatSpec.bit_of (concat (map (le_bytes 16) ws)) x =
  option_map (fun w => Z.testbit w (Z.of_nat (x mod 128))) (nth_error ws (x / 128)).
Proof.
  induction ws as [|w ws IH]; intros x; cbn [map concat].
  - unfold FormatSpec.bit_of. now destruct (x / 8)%nat, (x / 128)%nat.
  - rewrite bit_app, le_bytes_length. destruct (Nat.ltb_spec x (8 * 16)) as [L|L].
    + rewrite FormatBits.le_bytes_bit by lia. replace (x / 128)%nat with 0%nat by lia.
      cbn [nth_error option_map]. do 3 f_equal. lia.
    + rewrite IH. replace (x / 128)%nat with (S ((x - 8 * 16) / 128)) by lia. cbn [nth_error].
      replace ((x - 8 * 16) mod 128)%nat with (x mod 128)%nat by lia. reflexivity.
Qed.

Lemma nth_concat {A} (m : nat) : forall (bm : list (list A)) k r ws, Forall (fun l => length l = m) bm ->
  nth_error bm k = Some ws -> (r < m)%nat -> nth_error (concat bm) (m * k + r) = nth_error ws r.
Proof.
  induction bm as [|l bm IH]; intros k r ws F H R; [destruct k; discriminate|].
  inversion F as [|? ? F1 F2]; subst. cbn [concat]. destruct k as [|k]; cbn [nth_error] in H.
  - injection H as ->. rewrite Nat.mul_0_r. now rewrite nth_error_app1 by lia.
  - rewrite nth_error_app2 by lia. replace (length l * S k + r - length l)%nat with (length l * k + r)%nat by lia.
    now apply IH.
Qed.

Lemma bitmap_stored p index prm g st :
  0 <= index < 2 ^ 8 ->
  4 <= log_block_size prm <= 32 -> 0 <= log_file_header_size prm -> 0 <= volume_size prm < 2 ^ 64 ->
  geometry_of Debug prm = Ret g ->
  let bs := 2 ^ log_block_size prm in
  g_bitmap_offset g + g_bitmap_blocks g * bs <= 2 ^ 56 ->
  (forall l, Z.of_nat (length (st l)) = bs) ->
  exists bm st', bitmap p g = Ret bm /\ store_bitmap p index g st = Ret st' /\
    (forall k j, 0 <= k < g_bitmap_blocks g -> (Z.of_nat j < 8 * bs) ->
       FormatSpec.bit_of (st' (place index (g_bitmap_offset g + k * bs))) j =
       bit_of bm (Z.to_nat (8 * bs * k) + j)) /\
    untouched index (g_bitmap_offset g) bs (g_bitmap_blocks g) st st'.
Proof.
  intros Hi Hb Hf Hv H bs Q Hl.
  destruct (bitmap_words p prm g Hb Hf Hv H) as (words & blocks & B1 & B2 & B3 & B4 & B5 & B6). fold bs in B1, B3, B4, B5.
  destruct (geometry_facts prm g ltac:(lia) Hf ltac:(lia) H) as (A & B & C & D & F & G & J & K & L & M & U & N & O & _).
  fold bs in A, B, G, J, K.
  assert (P : 0 < bs) by (apply Z.pow_pos_nonneg; lia).
  assert (R : bs = 16 * 2 ^ (log_block_size prm - 4)).
  { unfold bs. change 16 with (2 ^ 4). rewrite <- Z.pow_add_r by lia. f_equal. lia. }
  assert (W : bs = 16 * Z.of_nat words) by (rewrite B1; clear - R; lia).
  pose proof (Z.pow_le_mono_r 2 (log_block_size prm) 32 ltac:(lia) ltac:(lia)) as V. fold bs in V.
  destruct (bitmap_blocks_words p (g_total_allocated g) (g_bitmap_bits g) words ltac:(lia) ltac:(lia) blocks 0 ltac:(lia)
              ltac:(lia)) as (bm & E & _).
  destruct (blocks_stored p index g bs words Hi P A W ltac:(nia) Q blocks 0 st 0 bm ltac:(lia) Hl E)
    as (st' & last & E2 & X & Y).
  exists bm, st'. split; [rewrite B6; exact E|]. split; [|split].
  - unfold store_bitmap, wmul. rewrite A. replace (bs * 8 <? 2 ^ 64) with true by lia. cbn [bind].
    replace (Z.to_nat (bs * 8 / 128)) with words.
    2: { replace (bs * 8) with (Z.of_nat words * 128) by lia. rewrite Z.div_mul by lia. lia. }
    replace (Z.to_nat (g_bitmap_blocks g)) with blocks by lia.
    exact (f_equal (fun x => bind x (fun s => let '(a, _) := s in Ret a)) E2).
  - destruct (blocks_length _ _ _ _ _ _ _ E) as [Lb Lw]. intros k j Hk Hj.
    destruct (nth_error bm (Z.to_nat k)) as [ws|] eqn:Ek.
    2: { apply nth_error_None in Ek. lia. }
    specialize (X _ _ Ek). rewrite Nat.add_0_l, Z2Nat.id in X by lia. rewrite X, word_bits.
    unfold bit_of.
    assert (T : (Z.to_nat (8 * bs * k) = 128 * (words * Z.to_nat k))%nat) 
      by (rewrite W; clear - Hk; rewrite <- (Z2Nat.id k) at 1 by lia;
          replace (8 * (16 * Z.of_nat words) * Z.of_nat (Z.to_nat k)) with (Z.of_nat (128 * (words * Z.to_nat k)))
            by (rewrite !Nat2Z.inj_mul; ring); apply Nat2Z.id).
    rewrite T.
    assert (D1 : ((128 * (words * Z.to_nat k) + j) / 128 = words * Z.to_nat k + j / 128)%nat).
    { rewrite (Nat.mul_comm 128), Nat.div_add_l by discriminate. reflexivity. }
    assert (D2 : ((128 * (words * Z.to_nat k) + j) mod 128 = j mod 128)%nat).
    { rewrite (Nat.mul_comm 128), Nat.add_comm, Nat.mod_add by discriminate. reflexivity. }
    rewrite D1, D2. rewrite (nth_concat words bm (Z.to_nat k) (j / 128) ws Lw Ek); [reflexivity|].
    apply Nat.div_lt_upper_bound; [discriminate|]. clear - Hj W. rewrite W in Hj. lia.
  - unfold untouched. intros l Hx. apply Y. intros k Hk. apply Hx. lia.
Qed.
