(** * Proofs about locations, identifiers, new pools and creation of volumes *)

From Coq Require Import ZifyBool ZifyNat ZifyN.
From Coq Require FinFun.
From Verif Require Import Base BaseFacts ListFacts UtilModel UtilProofs StorageModel StorageSpec ListPtr.
Local Open Scope Z_scope.
Ltac Zify.zify_post_hook ::= Z.div_mod_to_equations.

(** ** Locations *)

Lemma location_value index offset : 0 <= index < 2 ^ 8 -> 0 <= offset < 2 ^ 56 ->
  location_new index offset = Ret (index * 2 ^ 56 + offset).
Proof.
  intros Hi Ho. unfold location_new, location_offset_mask, location_shift_bits, location_representation_bits,
    location_index_bits. change (64 - 8) with 56.
  rewrite land_low_mask by lia. rewrite Z.mod_small by lia. rewrite Z.eqb_refl.
  rewrite Z.shiftl_mul_pow2 by lia. rewrite (Z.mod_small (index * 2 ^ 56)) by lia.
  rewrite (lor_low_high _ _ 56); [reflexivity|lia| |lia].
  apply Z.mod_mul. lia.
Qed.

Lemma location_parts index offset : 0 <= index < 2 ^ 8 -> 0 <= offset < 2 ^ 56 ->
  location_index (index * 2 ^ 56 + offset) = index /\ location_offset (index * 2 ^ 56 + offset) = offset.
Proof.
  intros Hi Ho. unfold location_index, location_offset, location_offset_mask, location_shift_bits,
    location_representation_bits, location_index_bits. change (64 - 8) with 56.
  rewrite land_low_mask, Z.shiftr_div_pow2 by lia. split.
  - rewrite Z.div_add_l by lia. rewrite Z.div_small by lia. rewrite Z.mod_small; lia.
  - rewrite Z.add_comm, Z.mod_add by lia. apply Z.mod_small. lia.
Qed.

Lemma location_too_large index offset : 2 ^ 56 <= offset < 2 ^ 64 -> location_new index offset = Panic.
Proof.
  intros Ho. unfold location_new, location_offset_mask, location_shift_bits, location_representation_bits,
    location_index_bits. change (64 - 8) with 56. rewrite land_low_mask by lia.
  pose proof (Z.mod_pos_bound offset (2 ^ 56) ltac:(lia)).
  destruct (Z.eqb_spec (offset mod 2 ^ 56) offset); [lia|reflexivity].
Qed.

Lemma location_injective i1 o1 i2 o2 l :
  0 <= i1 < 2 ^ 8 -> 0 <= i2 < 2 ^ 8 -> 0 <= o1 < 2 ^ 64 -> 0 <= o2 < 2 ^ 64 ->
  location_new i1 o1 = Ret l -> location_new i2 o2 = Ret l -> i1 = i2 /\ o1 = o2.
Proof.
  intros H1 H2 H3 H4 E1 E2.
  assert (o1 < 2 ^ 56) by (destruct (Z.lt_ge_cases o1 (2 ^ 56)); [assumption|rewrite location_too_large in E1 by lia; discriminate]).
  assert (o2 < 2 ^ 56) by (destruct (Z.lt_ge_cases o2 (2 ^ 56)); [assumption|rewrite location_too_large in E2 by lia; discriminate]).
  rewrite location_value in E1, E2 by lia. assert (E : i1 * 2 ^ 56 + o1 = i2 * 2 ^ 56 + o2) by congruence.
  destruct (location_parts i1 o1 ltac:(lia) ltac:(lia)) as [A B].
  destruct (location_parts i2 o2 ltac:(lia) ltac:(lia)) as [C D].
  rewrite <- E in C, D. split; congruence.
Qed.

(** Every [u64] is a location, and taking it apart and building it again gives it back. *)
Lemma location_onto l : 0 <= l < 2 ^ 64 -> location_new (location_index l) (location_offset l) = Ret l.
Proof.
  intros Hl.
  assert (E : l = (l / 2 ^ 56) * 2 ^ 56 + l mod 2 ^ 56) by (rewrite Z.mul_comm; apply Z.div_mod; lia).
  pose proof (Z.mod_pos_bound l (2 ^ 56) ltac:(lia)).
  assert (0 <= l / 2 ^ 56 < 2 ^ 8) by (split; [apply Z.div_pos; lia|apply Z.div_lt_upper_bound; lia]).
  destruct (location_parts (l / 2 ^ 56) (l mod 2 ^ 56)) as [A B]; [lia|lia|].
  rewrite <- E in A, B. rewrite A, B. rewrite location_value by lia. now rewrite <- E.
Qed.

(** ** Identifiers *)

Lemma draw_ids p n : forall m, 0 <= m_next m -> m_next m + Z.of_nat n <= 255 ->
  draw p n m = Ret ({| m_volumes := m_volumes m; m_next := m_next m + Z.of_nat n; m_pool := m_pool m |},
                    map (fun i => Ok (m_next m + Z.of_nat i)) (seq 0 n)).
Proof.
  induction n as [|n IH]; intros m H0 H; cbn [draw].
  - destruct m; cbn. do 2 f_equal. f_equal. lia.
  - unfold next_volume, wadd. replace (m_next m + 1 <? 2 ^ 8) with true by lia. cbn [bind].
    replace (m_next m + 1 <? m_next m) with false by lia.
    rewrite IH by (cbn; lia). cbn [bind m_volumes m_next m_pool].
    do 2 f_equal; [f_equal; lia|]. cbn [seq map]. f_equal; [f_equal; lia|].
    rewrite <- seq_shift, map_map. apply map_ext. intros i. f_equal. lia.
Qed.

Lemma draw_app p a b m :
  draw p (a + b) m = ('(m1, r1) <- draw p a m ;; '(m2, r2) <- draw p b m1 ;; Ret (m2, r1 ++ r2)).
Proof.
  revert m. induction a as [|a IH]; intros m; cbn [draw Nat.add].
  - cbn [bind]. destruct (draw p b m) as [[m2 r2]| |]; reflexivity.
  - destruct (next_volume p m) as [[m1 r]| |]; cbn [bind]; try reflexivity.
    rewrite IH. destruct (draw p a m1) as [[m2 r2]| |]; cbn [bind]; try reflexivity.
    destruct (draw p b m2) as [[m3 r3]| |]; reflexivity.
Qed.

Lemma draw_full_debug n m : m_next m = 255 -> (0 < n)%nat -> draw Debug n m = Panic.
Proof.
  intros H Hn. destruct n as [|n]; [lia|]. cbn [draw]. unfold next_volume, wadd. rewrite H. reflexivity.
Qed.

Lemma draw_full_release n : forall m, m_next m = 255 -> draw Release n m = Ret (m, repeat (Err tt) n).
Proof.
  induction n as [|n IH]; intros m H; [reflexivity|]. cbn [draw].
  unfold next_volume, wadd. rewrite H. change (255 + 1 <? 2 ^ 8) with false. cbn [bind].
  change ((255 + 1) mod 2 ^ 8) with 0. change (0 <? 255) with true. cbv beta iota.
  rewrite IH by exact H. reflexivity.
Qed.

Lemma ids_nodup n : NoDup (map (fun i => @Ok Z unit (Z.of_nat i)) (seq 0 n)).
Proof.
  apply FinFun.Injective_map_NoDup; [|apply seq_NoDup]. intros a b E. injection E. lia.
Qed.

(** ** A new pool *)

Lemma chain_debug ls : chain Debug ls 0 = Panic.
Proof. reflexivity. Qed.

Lemma pool_debug map_anon bs n r : pool_new Debug map_anon bs n <> Ret (Ok r).
Proof.
  unfold pool_new. destruct (negb (bs =? 0)); [|discriminate]. destruct (negb (n =? 0)) eqn:N0; [|discriminate].
  destruct (is_pow2 bs); [|discriminate]. destruct (n <? nil_index); [|discriminate].
  destruct (wmul Debug 64 bs n) as [b| |]; cbn [bind]; try discriminate.
  destruct (negb (map_anon b)); [discriminate|].
  destruct (Z.to_nat n) as [|k] eqn:K; [|cbn [seq foldM]; rewrite chain_debug; discriminate].
  cbn [seq foldM repeat bind].
  unfold set_prev, get. change (nth_error (@nil link) (Z.to_nat 0)) with (@None link). discriminate.
Qed.

Lemma chain_release ls i : (i < length ls)%nat -> Z.of_nat (length ls) <= nil_index ->
  exists ls', chain Release ls i = Ret ls' /\ length ls' = length ls /\
    forall j, nth_error ls' j = if (j =? i)%nat
                                then Some {| prev := if (i =? 0)%nat then nil_index else Z.of_nat i - 1; next := Z.of_nat i + 1 |}
                                else nth_error ls j.
Proof.
  intros Hi Hn. unfold nil_index in Hn. unfold chain, wsub, wadd.
  assert (B : (if 1 <=? Z.of_nat i then Ret (Z.of_nat i - 1) else Ret ((Z.of_nat i - 1) mod 2 ^ 64)) =
              Ret (if (i =? 0)%nat then 2 ^ 64 - 1 else Z.of_nat i - 1)).
  { destruct (Nat.eqb_spec i 0) as [->|]; [reflexivity|]. replace (1 <=? Z.of_nat i) with true by lia. reflexivity. }
  rewrite B. cbn [bind].
  destruct (nth_error ls i) as [k|] eqn:K; [|apply nth_error_None in K; lia].
  destruct (set_prev_ok ls i k ((if (i =? 0)%nat then 2 ^ 64 - 1 else Z.of_nat i - 1) mod 2 ^ 32) K) as [ls1 [E1 [L1 N1]]].
  rewrite E1. cbn [bind]. replace (Z.of_nat i + 1 <? 2 ^ 64) with true by lia. cbn [bind].
  pose proof (N1 i) as Ki. rewrite Nat.eqb_refl in Ki.
  destruct (set_next_ok ls1 i _ ((Z.of_nat i + 1) mod 2 ^ 32) Ki) as [ls2 [E2 [L2 N2]]].
  rewrite E2. exists ls2. split; [reflexivity|]. split; [congruence|]. intros j. rewrite N2.
  destruct (Nat.eqb_spec j i) as [->|Ne].
  - cbn [prev]. f_equal. f_equal.
    + destruct (Nat.eqb_spec i 0); [reflexivity|]. apply Z.mod_small. lia.
    + apply Z.mod_small. lia.
  - rewrite N1. destruct (Nat.eqb_spec j i); [contradiction|reflexivity].
Qed.

Lemma chain_loop k : forall i ls, (i + k <= length ls)%nat -> Z.of_nat (length ls) <= nil_index ->
  exists ls', foldM (chain Release) (seq i k) ls = Ret ls' /\ length ls' = length ls /\
    forall j, nth_error ls' j = if ((i <=? j) && (j <? i + k))%nat
                                then Some {| prev := if (j =? 0)%nat then nil_index else Z.of_nat j - 1; next := Z.of_nat j + 1 |}
                                else nth_error ls j.
Proof.
  induction k as [|k IH]; intros i ls Hk Hn; cbn [seq foldM].
  - exists ls. split; [reflexivity|]. split; [reflexivity|]. intros j.
    replace ((i <=? j) && (j <? i + 0))%nat with false by lia. reflexivity.
  - destruct (chain_release ls i ltac:(lia) Hn) as [ls1 [E1 [L1 N1]]]. rewrite E1. cbn [bind].
    destruct (IH (S i) ls1 ltac:(lia) ltac:(lia)) as [ls2 [E2 [L2 N2]]]. rewrite E2.
    exists ls2. split; [reflexivity|]. split; [congruence|]. intros j. rewrite N2, N1.
    destruct (Nat.eqb_spec j i) as [->|Ne].
    + replace ((S i <=? i) && (i <? S i + k))%nat with false by lia.
      replace ((i <=? i) && (i <? i + S k))%nat with true by lia. reflexivity.
    + replace ((i <=? j) && (j <? i + S k))%nat with ((S i <=? j) && (j <? S i + k))%nat by lia. reflexivity.
Qed.

Lemma first_seq i k : first (seq i k) = match k with O => nil_index | S _ => Z.of_nat i end.
Proof. destruct k; reflexivity. Qed.

Lemma first_rev_seq x : first (rev (seq 0 x)) = if (x =? 0)%nat then nil_index else Z.of_nat x - 1.
Proof.
  destruct x as [|x]; [reflexivity|]. rewrite seq_S, rev_app_distr. cbn [rev app first Nat.eqb Nat.add]. lia.
Qed.

Lemma seq_split n : forall i l1 x l2, seq i n = l1 ++ x :: l2 ->
  (x < i + n)%nat /\ (i <= x)%nat /\ l1 = seq i (x - i) /\ l2 = seq (S x) (i + n - S x).
Proof.
  induction n as [|n IH]; intros i l1 x l2 E; [destruct l1; discriminate|].
  destruct l1 as [|a l1]; cbn in E; injection E as -> E.
  - subst l2. split; [lia|]. split; [lia|]. rewrite Nat.sub_diag. split; [reflexivity|]. f_equal. lia.
  - destruct (IH _ _ _ _ E) as [A [B [-> ->]]]. split; [lia|]. split; [lia|].
    split; [|f_equal; lia]. replace (x - a)%nat with (S (x - S a)) by lia. reflexivity.
Qed.

Lemma pool_release map_anon bs n :
  is_pow2 bs = true -> 0 < n < nil_index -> map_anon (bs * n mod 2 ^ 64) = true ->
  exists m, pool_new Release map_anon bs n = Ret (Ok (m, bs * n mod 2 ^ 64)) /\
    represents [p_available m; p_in_use m; p_dirty m] (p_links m) [seq 0 (Z.to_nat n); []; []] /\
    length (p_links m) = Z.to_nat n /\ p_buffers m = repeat buffer_default (Z.to_nat n) /\
    p_mapped m = [] /\ p_locks m = [].
Proof.
  intros Hb Hn Hm. pose proof Hn as Hn2. unfold nil_index in Hn2. unfold pool_new.
  assert (0 < bs). { apply is_pow2_true in Hb as [k [Hk ->]]. apply Z.pow_pos_nonneg; lia. }
  replace (bs =? 0) with false by lia. replace (n =? 0) with false by lia. rewrite Hb.
  replace (n <? nil_index) with true by lia. cbn [negb].
  assert (M : wmul Release 64 bs n = Ret (bs * n mod 2 ^ 64)).
  { unfold wmul. destruct (Z.ltb_spec (bs * n) (2 ^ 64)); [|reflexivity]. f_equal. symmetry. apply Z.mod_small. nia. }
  rewrite M. cbn [bind]. rewrite Hm. cbn [negb].
  set (k := Z.to_nat n). assert (Hk : Z.of_nat k = n) by lia.
  destruct (chain_loop k 0 (repeat link_default k)) as [ls1 [E1 [L1 N1]]];
    [rewrite repeat_length; lia|rewrite repeat_length; unfold nil_index; lia|].
  rewrite E1. cbn [bind]. rewrite repeat_length in L1. cbn [Nat.add] in N1.
  destruct (nth_error ls1 0) as [k0|] eqn:K0; [|apply nth_error_None in K0; lia].
  destruct (set_prev_ok ls1 0 k0 nil_index K0) as [ls2 [E2 [L2 N2]]].
  change (Z.of_nat 0) with 0 in E2. rewrite E2. cbn [bind].
  destruct (nth_error ls2 (k - 1)) as [kl|] eqn:Kl; [|apply nth_error_None in Kl; lia].
  destruct (set_next_ok ls2 (k - 1) kl nil_index Kl) as [ls3 [E3 [L3 N3]]].
  replace (Z.of_nat (k - 1)) with (n - 1) in E3 by lia. rewrite E3. cbn [bind].
  eexists. split; [reflexivity|]. cbn [p_available p_in_use p_dirty p_links p_buffers p_mapped p_locks].
  split; [|split; [congruence|auto]].
  assert (V : forall j, (j < k)%nat -> nth_error ls3 j =
              Some {| prev := if (j =? 0)%nat then nil_index else Z.of_nat j - 1;
                      next := if (j =? k - 1)%nat then nil_index else Z.of_nat j + 1 |}).
  { assert (V2 : forall j, (j < k)%nat -> nth_error ls2 j =
              Some {| prev := if (j =? 0)%nat then nil_index else Z.of_nat j - 1; next := Z.of_nat j + 1 |}).
    { intros j Hj. rewrite N2, N1. replace ((0 <=? j) && (j <? k))%nat with true by lia.
      destruct (Nat.eqb_spec j 0) as [->|]; [|reflexivity]. rewrite N1 in K0.
      replace ((0 <=? 0) && (0 <? k))%nat with true in K0 by lia. injection K0 as <-. reflexivity. }
    intros j Hj. rewrite N3. destruct (Nat.eqb_spec j (k - 1)) as [->|]; [|now apply V2].
    rewrite V2 in Kl by lia. injection Kl as <-. reflexivity. }
  split; [|split; [|split]].
  - constructor; [|constructor; [split; reflexivity|constructor; [split; reflexivity|constructor]]].
    apply threads_linked. split; [|split].
    + cbn [h_head]. rewrite first_seq. destruct k; [lia|reflexivity].
    + cbn [h_tail]. rewrite first_rev_seq. replace (k =? 0)%nat with false by lia. lia.
    + intros l1 x l2 E. apply seq_split in E as [A [B [-> ->]]]. cbn [Nat.add] in A.
      rewrite V by lia. rewrite Nat.sub_0_r, first_rev_seq, first_seq. do 2 f_equal.
      destruct (Nat.eqb_spec x (k - 1)).
      * replace (0 + k - S x)%nat with 0%nat by lia. reflexivity.
      * destruct (0 + k - S x)%nat eqn:Q; [lia|]. lia.
  - cbn [concat]. rewrite app_nil_r. apply seq_NoDup.
  - cbn [concat]. rewrite app_nil_r. intros x Hx Nx. exfalso. apply Nx, in_seq. lia.
  - rewrite L3, L2, L1. unfold nil_index. lia.
Qed.

Lemma pool_release_args map_anon bs n :
  (0 <= bs < 2 ^ 64) -> 0 <= n < 2 ^ 64 ->
  is_pow2 bs = false \/ n = 0 \/ nil_index <= n ->
  forall p, pool_new p map_anon bs n = Panic.
Proof.
  intros Hb Hn H p. unfold pool_new.
  destruct (negb (bs =? 0)); [|reflexivity]. destruct (negb (n =? 0)) eqn:N0; [|reflexivity].
  destruct (is_pow2 bs); [|reflexivity].
  destruct H as [H|[H|H]]; [discriminate|lia|]. replace (n <? nil_index) with false by lia. reflexivity.
Qed.

(** ** Creating a volume *)

Lemma copy_all_pow2 (page h : list byte) r :
  is_pow2 (Z.of_nat (length page)) = true -> is_pow2 (Z.of_nat (length h)) = false ->
  copy_range page 0 (length page) h = r -> r = Panic.
Proof.
  intros Hp Hh <-. unfold copy_range. rewrite Nat.sub_0_r.
  destruct (Nat.eqb_spec (length page) (length h)) as [E|]; [congruence|]. now rewrite andb_false_r.
Qed.

Lemma bind_defined {A B} (x : outcome A) (f : A -> outcome B) :
  x <> Undef -> (forall a, f a <> Undef) -> bind x f <> Undef.
Proof. intros Hx Hf. destruct x; cbn; [apply Hf|discriminate|contradiction]. Qed.

Lemma wshl_defined p w a k : wshl p w a k <> Undef.
Proof. unfold wshl. destruct (_ <? _), p; discriminate. Qed.
Lemma wmul_defined p w a b : wmul p w a b <> Undef.
Proof. unfold wmul. destruct (_ <? _), p; discriminate. Qed.
Lemma wadd_defined p w a b : wadd p w a b <> Undef.
Proof. unfold wadd. destruct (_ <? _), p; discriminate. Qed.
Lemma wsub_defined p w a b : wsub p w a b <> Undef.
Proof. unfold wsub. destruct (_ <=? _), p; discriminate. Qed.

Lemma check_defined {A} (b : bool) (x : outcome A) : x <> Undef -> (if b then x else Panic) <> Undef.
Proof. destruct b; [auto|discriminate]. Qed.

Lemma geometry_defined p prm : geometry_of p prm <> Undef.
Proof.
  unfold geometry_of, align_w, calc_file_blocks.
  repeat first [ apply bind_defined; [|intros ?] | apply wshl_defined | apply wmul_defined | apply wadd_defined
               | apply wsub_defined | apply check_defined | discriminate ].
Qed.

Lemma create_panics p e rest m prm :
  length (e_uuid e) = 16%nat -> length (e_pad e) = 4%nat ->
  (forall l, e_access e l <> Undef) ->
  (forall l page, e_access e l = Ret page -> is_pow2 (Z.of_nat (length page)) = true) ->
  snd (create p e rest m prm) = Panic \/ snd (create p e rest m prm) = Ret (Err tt).
Proof.
  intros Hu Hp Hd Ha. unfold create.
  destruct (geometry_of p prm) as [g| |] eqn:G; [|now left|].
  2: { now apply geometry_defined in G. }
  destruct (e_open e); cbn [negb]; [|now right]. destruct (e_set_len e); cbn [negb]; [|now right].
  unfold next_volume, wadd.
  assert (K : forall m1 index, m_pool m1 = m_pool m ->
    snd (if negb (Z.of_nat (length (m_volumes m1)) =? index) then (m1, Panic)
         else
              let m2 := {| m_volumes := m_volumes m1 ++ [prm]; m_next := m_next m1; m_pool := m_pool m1 |} in
              (m2,
               check m_pool m2 ;;
               location <- location_new index 0 ;;
               page <- e_access e location ;;
               check (48 <=? Z.of_nat (length page)) ;;
               page' <- copy_range page 0 (length page)
                          (volume_header_bytes (e_uuid e) (e_pad e) (g_file_table_offset g) prm) ;;
               _ <- rest m2 index g page' ;;
               Ret (@Ok Z unit index))) = Panic).
  { intros m1 index Hm1. destruct (negb _); [reflexivity|].
    cbn [snd m_pool]; destruct (m_pool m1); [|reflexivity].
    unfold location_new; change (Z.land 0 location_offset_mask =? 0) with true; cbn [bind].
    match goal with |- context [e_access e ?l] => destruct (e_access e l) as [page| |] eqn:A end; cbn [bind];
       [|reflexivity|exfalso; eapply Hd; eauto].
    destruct (48 <=? Z.of_nat (length page)); [|reflexivity].
    match goal with |- context [copy_range ?a ?b ?c ?d] => destruct (copy_range a b c d) eqn:C end; cbn [bind];
       try reflexivity.
    all: apply copy_all_pow2 in C; [discriminate|eapply Ha; eauto|].
    all: unfold volume_header_bytes; rewrite !app_length, !le_bytes_length, Hu, Hp; reflexivity. }
  destruct (m_next m + 1 <? 2 ^ 8); [|destruct p; [now left|]]; cbn [bind].
  - destruct (m_next m + 1 <? m_next m); [now right|]. left. now apply K.
  - destruct ((m_next m + 1) mod 2 ^ 8 <? m_next m); [now right|]. left. now apply K.
Qed.

Lemma wshl_one p k b : 0 <= k -> wshl p 64 1 k = Ret b -> exists j, 0 <= j < 64 /\ b = 2 ^ j /\ (k < 64 -> j = k).
Proof.
  assert (V : forall j, 0 <= j < 64 -> Z.shiftl 1 j mod 2 ^ 64 = 2 ^ j).
  { intros j Hj. rewrite Z.shiftl_mul_pow2, Z.mul_1_l by lia. apply Z.mod_small.
    split; [apply Z.pow_nonneg; lia|apply Z.pow_lt_mono_r; lia]. }
  intros Hk. unfold wshl. destruct (Z.ltb_spec k 64).
  - rewrite V by lia. intros E. exists k. split; [lia|]. split; [congruence|auto].
  - destruct p; [discriminate|]. pose proof (Z.mod_pos_bound k 64 ltac:(lia)). rewrite V by lia.
    intros E. exists (k mod 64). split; [lia|]. split; [congruence|lia].
Qed.

Lemma init_file_header_panics p access seconds nanos pad rest index base i size extent prm :
  0 <= log_file_header_size prm -> length pad = 4%nat ->
  (forall l, access l <> Undef) ->
  init_file_header p access seconds nanos pad rest index base i size extent prm = Panic.
Proof.
  intros Hl Hp Hd. unfold init_file_header.
  pose proof (wshl_defined p) as W. pose proof (wmul_defined p) as M. pose proof (wadd_defined p) as A.
  pose proof (wsub_defined p) as S.
  destruct (wshl p 64 1 (log_block_size prm)) as [bs| |] eqn:B; cbn [bind]; [|reflexivity|now apply W in B].
  destruct (wshl p 64 1 (log_file_header_size prm)) as [fh| |] eqn:F; cbn [bind]; [|reflexivity|now apply W in F].
  destruct (wmul p 64 i fh) as [st| |] eqn:E1; cbn [bind]; [|reflexivity|now apply M in E1].
  destruct (wmul p 64 (st / bs) bs) as [bst| |] eqn:E2; cbn [bind]; [|reflexivity|now apply M in E2].
  destruct (wadd p 64 base bst) as [lo| |] eqn:E3; cbn [bind]; [|reflexivity|now apply A in E3].
  unfold location_new. destruct (_ =? lo); cbn [bind]; [|reflexivity].
  match goal with |- context [access ?l] => destruct (access l) as [page| |] eqn:Ac end; cbn [bind];
    [|reflexivity|now apply Hd in Ac].
  unfold index_range. match goal with |- context [if ?b then Ret _ else Panic] => destruct b eqn:R end; cbn [bind]; [|reflexivity].
  destruct (wadd p 64 size bs) as [s| |] eqn:E4; cbn [bind]; [|reflexivity|now apply A in E4].
  destruct (wsub p 64 s 1) as [s1| |] eqn:E5; cbn [bind]; [|reflexivity|now apply S in E5].
  unfold file_timestamp. destruct (_ =? 0); [|reflexivity]. cbn [bind].
  match goal with |- context [copy_range ?a ?b ?c ?d] => destruct (copy_range a b c d) eqn:C end; cbn [bind];
       try reflexivity.
  all: apply copy_all_pow2 in C; [discriminate| |].
  2,4: unfold file_header_bytes; rewrite !app_length, !le_bytes_length, Hp; reflexivity.
  all: destruct (wshl_one _ _ _ Hl F) as [j [Hj [-> _]]];
       assert (0 < 2 ^ j) by (apply Z.pow_pos_nonneg; lia);
       rewrite slice_length by lia;
       replace (Z.of_nat (Z.to_nat (st mod bs) + Z.to_nat (2 ^ j) - Z.to_nat (st mod bs))) with (2 ^ j) by lia;
       apply is_pow2_true; exists j; split; [lia|reflexivity].
Qed.

(** A volume that is created (or whose creation panics late) uses the identifier of its position. *)
Lemma create_manager p e rest m prm :
  0 <= m_next m < 2 ^ 8 ->
  Z.of_nat (length (m_volumes m)) = m_next m ->
  let m' := fst (create p e rest m prm) in
  Z.of_nat (length (m_volumes m')) = m_next m' /\ m_next m <= m_next m' < 2 ^ 8 /\
  exists l, m_volumes m' = m_volumes m ++ l.
Proof.
  intros Hn Hl. unfold create.
  assert (Same : Z.of_nat (length (m_volumes m)) = m_next m /\ m_next m <= m_next m < 2 ^ 8 /\
                 exists l, m_volumes m = m_volumes m ++ l)
    by (split; [exact Hl|split; [lia|exists []; now rewrite app_nil_r]]).
  destruct (geometry_of p prm) as [g| |]; try exact Same.
  destruct (e_open e); cbn [negb]; [|exact Same]. destruct (e_set_len e); cbn [negb]; [|exact Same].
  unfold next_volume, wadd.
  destruct (Z.ltb_spec (m_next m + 1) (2 ^ 8)) as [L|L]; [|destruct p; [exact Same|]]; cbn [bind].
  - replace (m_next m + 1 <? m_next m) with false by lia. cbv beta iota. cbn [m_volumes m_next m_pool].
    rewrite Hl, Z.eqb_refl. cbn [negb fst m_volumes m_next].
    split; [rewrite app_length; cbn; lia|]. split; [lia|eauto].
  - replace ((m_next m + 1) mod 2 ^ 8) with 0 by (replace (m_next m + 1) with (2 ^ 8) by lia; reflexivity).
    replace (0 <? m_next m) with true by lia. cbv beta iota. exact Same.
Qed.
