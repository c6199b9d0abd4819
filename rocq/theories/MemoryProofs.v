(** * The memory of the buffer pool: proofs *)

From Verif Require Import Base StorageModel PoolModel PoolSpec PoolProofs MemoryModel BaseFacts HeaderProofs.
Local Open Scope nat_scope.

(** ** Pieces of equal length *)

Lemma concat_length {A} (b : nat) (ls : list (list A)) : Forall (fun l => length l = b) ls ->
  length (concat ls) = b * length ls.
Proof. induction 1 as [|l ls H F IH]; cbn; [lia|]. rewrite app_length, IH, H. lia. Qed.

Lemma Forall_firstn {A} (P : A -> Prop) n (l : list A) : Forall P l -> Forall P (firstn n l).
Proof. intros H. rewrite <- (firstn_skipn n l) in H. now apply Forall_app in H as [H _]. Qed.

Lemma Forall_skipn {A} (P : A -> Prop) n (l : list A) : Forall P l -> Forall P (skipn n l).
Proof. intros H. rewrite <- (firstn_skipn n l) in H. now apply Forall_app in H as [_ H]. Qed.

Lemma split_nth {A} (l : list A) i x : nth_error l i = Some x -> l = firstn i l ++ x :: skipn (S i) l.
Proof.
  revert i. induction l as [|a l IH]; intros [|i]; try discriminate.
  - intros [= <-]. reflexivity.
  - cbn [nth_error]. intros H. change (skipn (S (S i)) (a :: l)) with (skipn (S i) l). cbn [firstn app]. now rewrite <- IH.
Qed.

Lemma firstn_exact {A} (l r : list A) n : length l = n -> firstn n (l ++ r) = l.
Proof. intros <-. rewrite firstn_app, firstn_all, Nat.sub_diag. cbn. apply app_nil_r. Qed.

Lemma skipn_exact {A} (l r : list A) n : length l = n -> skipn n (l ++ r) = r.
Proof. intros <-. rewrite skipn_app, skipn_all, Nat.sub_diag. reflexivity. Qed.

Lemma piece {A} (b : nat) (ls : list (list A)) i x : Forall (fun l => length l = b) ls -> nth_error ls i = Some x ->
  firstn b (skipn (b * i) (concat ls)) = x.
Proof.
  intros F N. pose proof (split_nth ls i x N) as E. assert (Li : i < length ls) by (apply nth_error_Some; congruence).
  assert (Lx : length x = b) by (rewrite Forall_forall in F; apply F; eapply nth_error_In; eauto).
  assert (Lf : length (concat (firstn i ls)) = b * i).
  { rewrite (concat_length b) by now apply Forall_firstn. rewrite firstn_length. f_equal. lia. }
  rewrite E, concat_app. cbn [concat]. rewrite skipn_exact by exact Lf. now apply firstn_exact.
Qed.

Lemma write_piece {A} (b : nat) (ls : list (list A)) i x : Forall (fun l => length l = b) ls -> i < length ls ->
  length x = b -> write (concat ls) (b * i) x = concat (upd ls i x).
Proof.
  intros F Li Lx. destruct (nth_error ls i) as [y|] eqn:N; [|apply nth_error_None in N; lia].
  pose proof (split_nth ls i y N) as E.
  assert (Ly : length y = b) by (rewrite Forall_forall in F; apply F; eapply nth_error_In; eauto).
  assert (Lf : length (concat (firstn i ls)) = b * i).
  { rewrite (concat_length b) by now apply Forall_firstn. rewrite firstn_length. f_equal. lia. }
  unfold upd. rewrite concat_app. cbn [concat]. unfold write. rewrite Lx.
  assert (E' : concat ls = concat (firstn i ls) ++ (y ++ concat (skipn (S i) ls))).
  { rewrite E at 1. rewrite concat_app. reflexivity. }
  rewrite E' at 1 2. rewrite firstn_exact by exact Lf. f_equal. f_equal. rewrite app_assoc.
  apply skipn_exact. rewrite app_length. lia.
Qed.

Lemma Forall_upd {A} (P : A -> Prop) (l : list A) i a : Forall P l -> P a -> Forall P (upd l i a).
Proof.
  intros F H. unfold upd. apply Forall_app. split; [now apply Forall_firstn|].
  constructor; [exact H|]. now apply Forall_skipn.
Qed.

(** ** Addresses *)

Lemma slice_start_in p bs size n i : (0 < bs)%Z -> (bs * n < 2 ^ 64)%Z -> (bs * n <= size)%Z -> (0 <= i < n)%Z ->
  slice_start p bs size i = Ret (bs * i)%Z.
Proof.
  intros Hb Hn Hs Hi. unfold slice_start, wmul.
  assert (X : (bs * i + bs <= bs * n)%Z) by nia.
  destruct (Z.ltb_spec (bs * i) (2 ^ 64)); [|lia]. cbn [bind].
  destruct (Z.leb_spec (bs * i + bs) size); [reflexivity|lia].
Qed.

(** The slices of different buffers are in the memory and apart from one another exactly if its size did not wrap. *)
Lemma slices_iff bs n : is_pow2 bs = true -> (bs < 2 ^ 64)%Z -> (0 < n)%Z ->
  (forall i j, (0 <= i < n)%Z -> (0 <= j < n)%Z -> i <> j ->
     exists a c, slice_start Release bs ((bs * n) mod 2 ^ 64) i = Ret a /\
       slice_start Release bs ((bs * n) mod 2 ^ 64) j = Ret c /\ (a + bs <= c \/ c + bs <= a)%Z) /\
  (exists a, slice_start Release bs ((bs * n) mod 2 ^ 64) 0 = Ret a)
  <-> (bs * n < 2 ^ 64)%Z.
Proof.
  intros Pw Hb Hn. pose proof Pw as Pw'. apply is_pow2_true in Pw' as [k [Hk Ek]].
  assert (Bp : (0 < bs)%Z) by (subst bs; apply Z.pow_pos_nonneg; lia).
  assert (K64 : (k < 64)%Z) by (subst bs; apply (Z.pow_lt_mono_r_iff 2); lia).
  split.
  - intros [D [a Ea]]. destruct (Z.lt_ge_cases (bs * n) (2 ^ 64)) as [|G]; [assumption|exfalso].
    assert (Q : (2 ^ 64 = bs * 2 ^ (64 - k))%Z) by (subst bs; rewrite <- Z.pow_add_r by lia; f_equal; lia).
    pose proof (Z.pow_pos_nonneg 2 (64 - k) ltac:(lia) ltac:(lia)) as Hq.
    set (q := (2 ^ (64 - k))%Z) in *. assert (Hqn : (q <= n)%Z) by nia.
    destruct (Z.eq_dec q n) as [->|Nq].
    + rewrite <- Q, Z.mod_same in Ea by lia. unfold slice_start, wmul in Ea. rewrite Z.mul_0_r in Ea.
      change (0 <? 2 ^ 64)%Z with true in Ea. cbn [bind] in Ea.
      destruct (Z.leb_spec (0 + bs) 0); [lia|discriminate].
    + destruct (D 0%Z q) as (a0 & c & E0 & E1 & Ap); [lia|lia|lia|].
      unfold slice_start, wmul in E0, E1. rewrite Z.mul_0_r in E0. rewrite <- Q in E1.
      change (0 <? 2 ^ 64)%Z with true in E0. rewrite Z.ltb_irrefl in E1. rewrite Z.mod_same in E1 by lia. cbn [bind] in E0, E1.
      destruct (0 + bs <=? (bs * n) mod 2 ^ 64)%Z; [|discriminate]. injection E0 as <-. injection E1 as <-. lia.
  - intros L. rewrite Z.mod_small by nia. split.
    + intros i j Hi Hj N. exists (bs * i)%Z, (bs * j)%Z.
      rewrite !(slice_start_in Release bs (bs * n) n) by lia. repeat split; auto. nia.
    + exists (bs * 0)%Z. apply (slice_start_in Release bs (bs * n) n); lia.
Qed.

(** ** The simulation *)

Section Run.
Context (p : profile) (fetch : Z -> option page) (zeros : page) (b : nat).
Context (Hb : 0 < b) (Hf : forall loc pg, fetch loc = Some pg -> length pg = b) (Hz : length zeros = b).

Definition sized (s : state) : Prop := Forall (fun pg => length pg = b) (s_pages s).

Lemma exec_touched e s s' r : inv s -> sized s -> exec p fetch zeros e s = Some (s', r) ->
  match touched fetch zeros e s with
  | Some (i, pg) => i < length (s_pages s) /\ length pg = b /\ s_pages s' = upd (s_pages s) i pg
  | None => s_pages s' = s_pages s
  end.
Proof.
  intros I Sz E. destruct e as [md loc|k|k|k pg|k|k|k]; cbn [exec touched] in *.
  - unfold buffer_access in E.
    assert (St : forall m i, s_pages (fst (start_access s m md loc i)) = s_pages s).
    { intros. unfold start_access. destruct (alloc_lock m (s_fresh s)) as [[l rest] fresh]. destruct (may_write _ _); reflexivity. }
    assert (Sx : forall m i, Some (start_access s m md loc i) = Some (s', r) -> s_pages s' = s_pages s).
    { intros m i [= X]. rewrite <- (St m i), X. reflexivity. }
    destruct (mapped_at (s_map s) loc) as [i|].
    + destruct (access_of (s_map s) i) as [[l c]|]; [|eapply Sx; eauto].
      destruct (wadd p 32 c 1); injection E as <- _; reflexivity.
    + destruct (h_tail _ =? nil_index)%Z; [discriminate|].
      destruct (list_remove _ _ _) as [[a1 ls1]| |]; try (injection E as <- _; reflexivity).
      destruct (list_push_front a1 ls1 _) as [[a2 ls2]| |]; try (injection E as <- _; reflexivity).
      destruct (access_of _ _); [injection E as <- _; reflexivity|eapply Sx; eauto].
  - destruct (nth_error (s_handles s) k) as [h|] eqn:K; [|discriminate].
    destruct (h_phase h); try discriminate. injection E as E. unfold fill in E.
    destruct (iv_handles s I h (nth_error_In _ _ K)) as (Hi & _). rewrite <- (iv_pages s I) in Hi.
    destruct (match h_mode h with Initialize => _ | _ => _ end) as [pg|] eqn:F; injection E as <- _; [|reflexivity].
    split; [exact Hi|]. split; [|reflexivity].
    destruct (h_mode h); [eapply Hf; eauto|eapply Hf; eauto|now injection F as <-].
  - destruct (nth_error (s_handles s) k) as [h|]; [|discriminate]. destruct (h_phase h); try discriminate.
    destruct (match h_mode h with ReadOnly => _ | _ => _ end); [|discriminate]. injection E as <- _. reflexivity.
  - destruct (nth_error (s_handles s) k) as [h|] eqn:K; [|discriminate].
    destruct (iv_handles s I h (nth_error_In _ _ K)) as (Hi & _). rewrite <- (iv_pages s I) in Hi.
    destruct (h_phase h), (h_mode h); try discriminate; destruct (Nat.eqb_spec (length pg) (length zeros)); try discriminate;
      injection E as <- _; (split; [exact Hi|]; split; [congruence|reflexivity]).
  - destruct (nth_error (s_handles s) k) as [h|]; [|discriminate]. destruct (h_phase h); try discriminate.
    injection E as E. unfold release in E.
    destruct (access_of _ _) as [[l c]|]; [|now injection E as <- _]. destruct (negb _); [now injection E as <- _|].
    destruct (1 <? c)%Z; [injection E as <- _; reflexivity|].
    destruct (move_buffer _ _ _ _); injection E as <- _; reflexivity.
  - destruct (nth_error (s_handles s) k) as [h|]; [|discriminate]. destruct (h_phase h); try discriminate.
    injection E as <- _. reflexivity.
  - destruct (nth_error (s_handles s) k) as [h|]; [|discriminate]. destruct (h_phase h); try discriminate;
      injection E as <- _; reflexivity.
Qed.

Lemma fill_slice_pages pages i pg : (Z.of_nat b * Z.of_nat (length pages) < 2 ^ 64)%Z ->
  Forall (fun q => length q = b) pages -> i < length pages -> length pg = b ->
  fill_slice p (Z.of_nat b) (concat pages) i pg = Ret (concat (upd pages i pg)).
Proof.
  intros Hn F Hi Lp. unfold fill_slice. rewrite (concat_length b) by exact F.
  rewrite (slice_start_in p _ _ (Z.of_nat (length pages))) by lia. cbn [bind].
  rewrite <- Nat2Z.inj_mul, Nat2Z.id. now rewrite write_piece.
Qed.

Lemma run_memory_pages es : forall s s' rs,
  inv s -> sized s -> (Z.of_nat b * Z.of_nat (length (s_pages s)) < 2 ^ 64)%Z ->
  p = Debug \/ (Z.of_nat (length (s_handles s')) < 2 ^ 32)%Z ->
  run p fetch zeros es s = Some (s', rs) ->
  run_memory p fetch zeros (Z.of_nat b) es s (concat (s_pages s)) = Some (Ret (concat (s_pages s'))) /\
  sized s' /\ length (s_pages s') = length (s_pages s).
Proof.
  induction es as [|e es IH]; intros s s' rs I Sz Hn Hp; cbn [run run_memory].
  - intros [= <- _]. auto.
  - destruct (exec p fetch zeros e s) as [[s1 r]|] eqn:E; [|discriminate].
    destruct (run p fetch zeros es s1) as [[s2 rs']|] eqn:R; [|discriminate]. intros [= <- _].
    pose proof (run_grow _ _ _ _ _ _ _ R) as G.
    assert (I1 : inv s1).
    { apply (exec_inv p fetch zeros e s s1 r); auto. destruct Hp as [Hp|Hp]; [now left|right; lia]. }
    pose proof (exec_touched e s s1 r I Sz E) as T.
    destruct (touched fetch zeros e s) as [[i pg]|].
    + destruct T as (Hi & Lp & T). rewrite fill_slice_pages by assumption.
      assert (Sz1 : sized s1) by (unfold sized; rewrite T; apply Forall_upd; assumption).
      assert (L1 : length (s_pages s1) = length (s_pages s)) by (rewrite T; now apply upd_length).
      destruct (IH s1 s2 rs' I1 Sz1 ltac:(rewrite L1; exact Hn) Hp R) as (A & B & C). rewrite L1 in C. rewrite T in A. auto.
    + assert (Sz1 : sized s1) by (unfold sized; rewrite T; assumption). rewrite <- T.
      apply (IH s1 s2 rs' I1 Sz1); auto. now rewrite T.
Qed.
End Run.

Lemma slice_of_pages p bs b pages i pg : bs = Z.of_nat b -> 0 < b ->
  Forall (fun q => length q = b) pages -> (bs * Z.of_nat (length pages) < 2 ^ 64)%Z -> nth_error pages i = Some pg ->
  readable_slice p bs (concat pages) i = Ret pg.
Proof.
  intros -> Hb F Hn N. unfold readable_slice. rewrite (concat_length b) by exact F.
  assert (Li : i < length pages) by (apply nth_error_Some; congruence).
  rewrite (slice_start_in p _ _ (Z.of_nat (length pages))) by lia. cbn [bind].
  rewrite <- Nat2Z.inj_mul, !Nat2Z.id. now rewrite (piece b pages i pg).
Qed.

Lemma pool_memory_lemma map_anon bs n m bytes : pool_new Release map_anon bs n = Ret (Ok (m, bytes)) ->
  (bs * n < 2 ^ 64)%Z -> forall p fetch zeros pages es s rs,
  (forall loc pg, fetch loc = Some pg -> Z.of_nat (length pg) = bs) -> Z.of_nat (length zeros) = bs ->
  Forall (fun pg => Z.of_nat (length pg) = bs) pages -> length pages = length (p_buffers m) ->
  run p fetch zeros es (start m pages) = Some (s, rs) ->
  (p = Debug \/ (Z.of_nat (length (s_handles s)) < 2 ^ 32)%Z) ->
  exists memory, run_memory p fetch zeros bs es (start m pages) (concat pages) = Some (Ret memory) /\
    Z.of_nat (length memory) = bytes /\
    forall i, (Z.of_nat i < n)%Z -> exists pg, nth_error (s_pages s) i = Some pg /\ readable_slice p bs memory i = Ret pg.
Proof.
  intros E Hn p fetch zeros pages es s rs Hf Hz F L R Hp.
  pose proof (inv_start_state map_anon bs n m bytes pages E L) as I.
  assert (Arg : (0 < bs)%Z /\ (0 <= n)%Z /\ length (p_buffers m) = Z.to_nat n /\ bytes = (bs * n)%Z).
  { unfold pool_new in E. destruct (negb (bs =? 0)%Z) eqn:B0; [|discriminate]. destruct (negb (n =? 0)%Z) eqn:N0; [|discriminate].
    destruct (is_pow2 bs) eqn:Pw; [|discriminate]. destruct (n <? nil_index)%Z eqn:Nn; [|discriminate].
    assert (Bp : (0 < bs)%Z) by (apply is_pow2_true in Pw as [k [Hk ->]]; apply Z.pow_pos_nonneg; lia).
    unfold wmul in E. destruct (Z.ltb_spec (bs * n) (2 ^ 64)); [|lia]. cbn [bind] in E.
    destruct (negb (map_anon _)); [discriminate|].
    destruct (Z.lt_ge_cases n 0) as [X|X].
    { exfalso. replace (Z.to_nat n) with 0%nat in E by lia. cbn [seq foldM repeat bind] in E.
      unfold set_prev, get in E. change (nth_error (@nil link) (Z.to_nat 0)) with (@None link) in E. discriminate. }
    destruct (foldM _ _ _) as [ls1| |]; try discriminate. cbn [bind] in E.
    destruct (set_prev ls1 _ _) as [ls2| |]; try discriminate. cbn [bind] in E.
    destruct (set_next _ _ _) as [ls3| |]; try discriminate. cbn [bind] in E.
    injection E as <- <-. cbn [p_buffers]. rewrite repeat_length. auto. }
  destruct Arg as (Bp & Np & Lb & ->).
  assert (Eb : bs = Z.of_nat (Z.to_nat bs)) by lia.
  set (b := Z.to_nat bs) in *.
  assert (F' : Forall (fun pg => length pg = b) pages) by (eapply Forall_impl; [|exact F]; cbn; lia).
  assert (Hf' : forall loc pg, fetch loc = Some pg -> length pg = b) by (intros loc pg X; apply Hf in X; lia).
  assert (Hz' : length zeros = b) by lia. assert (Hb : 0 < b) by lia.
  assert (Ln : Z.of_nat (length pages) = n) by lia.
  destruct (run_memory_pages p fetch zeros b Hb Hf' Hz' es (start m pages) s rs I F') as (A & Sz & Ls);
    [change (s_pages (start m pages)) with pages; rewrite <- Eb; exact (eq_ind_r (fun z => (bs * z < 2 ^ 64)%Z) Hn Ln)|exact Hp|exact R|].
  cbn [start s_pages] in *. exists (concat (s_pages s)). rewrite Eb at 1. split; [exact A|].
  assert (Ls' : @length (list byte) (s_pages s) = Z.to_nat n) by (rewrite <- Lb; exact (eq_trans Ls L)).
  split; [rewrite (concat_length b), Ls' by exact Sz; nia|].
  intros i Hi. destruct (nth_error (s_pages s) i) as [pg|] eqn:N; [|apply nth_error_None in N; assert (Z.to_nat n <= i) by exact (eq_ind (@length (list byte) (s_pages s)) (fun z => z <= i) N _ Ls'); lia].
  exists pg. split; [reflexivity|]. apply (slice_of_pages p bs b); auto. rewrite Ls', Z2Nat.id by exact Np. exact Hn.
Qed.

(** ** Sizes that wrap *)

Lemma wrapped_memory : exists bs n m bytes,
  pool_new Release (fun size => size <? 2 ^ 40)%Z bs n = Ret (Ok (m, bytes)) /\
  (exists i j a, (0 <= i < n)%Z /\ (0 <= j < n)%Z /\ i <> j /\
     slice_start Release bs bytes i = Ret a /\ slice_start Release bs bytes j = Ret a) /\
  (exists i, (0 <= i < n)%Z /\ slice_start Release bs bytes i = Undef).
Proof.
  destruct (pool_fresh (fun size => size <? 2 ^ 40)%Z (2 ^ 33) (2 ^ 31 + 1)) as [m (E & _)];
    [reflexivity|unfold nil_index; lia|reflexivity|].
  exists (2 ^ 33)%Z, (2 ^ 31 + 1)%Z, m, (2 ^ 33 * (2 ^ 31 + 1) mod 2 ^ 64)%Z. split; [exact E|]. clear m E. split.
  - exists 0%Z, (2 ^ 31)%Z, 0%Z. split; [lia|]. split; [lia|]. split; [discriminate|]. split; vm_compute; reflexivity.
  - exists 1%Z. split; [lia|vm_compute; reflexivity].
Qed.
