(** * The marks of written buffers *)

From Coq Require Import ZifyBool ZifyNat ZifyN.
From Verif Require Import Base BaseFacts StorageModel StorageSpec ListPtr StorageProofs PoolModel PoolSpec PoolProofs PoolTheorems.
Local Open Scope nat_scope.

Definition mark (m : mapping) (i : nat) : bool :=
  match nth_error (p_buffers m) i with Some b => b_dirty b | None => false end.

Definition subm (m : mapping) (i : nat) : bool :=
  match nth_error (p_buffers m) i with Some b => b_submitted b | None => false end.

Definition gave_back (i : nat) (h : handle) : bool :=
  negb (counted h) && (match h_mode h with ReadOnly => false | _ => true end) && (h_index h =? i).

Definition due (hs : list handle) (i : nat) : bool := existsb (gave_back i) hs.

Lemma upd_out {A} (l : list A) k (a : A) (h : A) : nth_error l k = Some h -> k < length l.
Proof. intros H. apply nth_error_Some. congruence. Qed.

Lemma mark_access m i a j : mark (set_access m i a) j = mark m j.
Proof.
  unfold mark, set_access. destruct (nth_error (p_buffers m) i) as [b|] eqn:E; [|reflexivity]. cbn [p_buffers].
  rewrite nth_upd by (eapply upd_out; eauto). destruct (Nat.eqb_spec j i) as [->|]; [rewrite E; reflexivity|reflexivity].
Qed.

Lemma subm_access m i a j : subm (set_access m i a) j = subm m j.
Proof.
  unfold subm, set_access. destruct (nth_error (p_buffers m) i) as [b|] eqn:E; [|reflexivity]. cbn [p_buffers].
  rewrite nth_upd by (eapply upd_out; eauto). destruct (Nat.eqb_spec j i) as [->|]; [rewrite E; reflexivity|reflexivity].
Qed.

Lemma mark_dirty m i j : i < length (p_buffers m) -> mark (set_dirty m i) j = (i =? j) || mark m j.
Proof.
  intros H. unfold mark, set_dirty. destruct (nth_error (p_buffers m) i) as [b|] eqn:E.
  - cbn [p_buffers]. rewrite nth_upd by exact H. rewrite (Nat.eqb_sym i j).
    destruct (Nat.eqb_spec j i) as [->|]; reflexivity.
  - apply nth_error_None in E. lia.
Qed.

Lemma subm_dirty m i j : subm (set_dirty m i) j = subm m j.
Proof.
  unfold subm, set_dirty. destruct (nth_error (p_buffers m) i) as [b|] eqn:E; [|reflexivity]. cbn [p_buffers].
  rewrite nth_upd by (eapply upd_out; eauto). destruct (Nat.eqb_spec j i) as [->|]; [rewrite E; reflexivity|reflexivity].
Qed.

Lemma access_dirty m i j : access_of (set_dirty m i) j = access_of m j.
Proof.
  unfold access_of, set_dirty. destruct (nth_error (p_buffers m) i) as [b|] eqn:E; [|reflexivity]. cbn [p_buffers].
  rewrite nth_upd by (eapply upd_out; eauto). destruct (Nat.eqb_spec j i) as [->|]; [rewrite E; reflexivity|reflexivity].
Qed.

Lemma move_buffers m l i d m' : move_buffer m l i d = Ret m' -> p_buffers m' = p_buffers (set_access m i None).
Proof.
  unfold move_buffer. intros H. destruct (list_remove _ _ _) as [[u1 ls1]| |]; cbn [bind] in H; try discriminate.
  destruct d; destruct (list_push_front _ _ _) as [[a ls2]| |]; cbn [bind] in H; try discriminate; injection H as <-; reflexivity.
Qed.

Lemma mark_move m l i d m' j : move_buffer m l i d = Ret m' -> mark m' j = mark m j /\ subm m' j = subm m j.
Proof.
  intros H. apply move_buffers in H. split.
  - rewrite <- (mark_access m i None j). unfold mark. rewrite H. reflexivity.
  - rewrite <- (subm_access m i None j). unfold subm. rewrite H. reflexivity.
Qed.

Lemma due_app hs h i : due (hs ++ [h]) i = due hs i || gave_back i h.
Proof. unfold due. rewrite existsb_app. cbn [existsb]. rewrite orb_false_r. reflexivity. Qed.

Lemma due_upd hs k h h' i : nth_error hs k = Some h -> gave_back i h = false \/ gave_back i h' = gave_back i h ->
  due (upd hs k h') i = gave_back i h' || due hs i.
Proof.
  intros H G. destruct (split_upd _ _ _ h' H) as [x [y [-> [-> _]]]]. unfold due. rewrite !existsb_app. cbn [existsb].
  destruct G as [G|G]; rewrite G; destruct (existsb _ x), (existsb _ y), (gave_back i h), (gave_back i h'); reflexivity.
Qed.

Lemma due_same hs k h h' i : nth_error hs k = Some h -> gave_back i h' = gave_back i h -> due (upd hs k h') i = due hs i.
Proof.
  intros H G. destruct (split_upd _ _ _ h' H) as [x [y [-> [-> _]]]]. unfold due. rewrite !existsb_app. cbn [existsb].
  rewrite G. reflexivity.
Qed.

Definition marks (s : state) : Prop :=
  forall i, mark (s_map s) i = due (s_handles s) i /\ subm (s_map s) i = false.

Lemma gave_not i h : counted h = true -> gave_back i h = false.
Proof. unfold gave_back. intros ->. reflexivity. Qed.

Lemma marks_add s m fresh h : marks s -> counted h = true ->
  (forall j, mark m j = mark (s_map s) j /\ subm m j = subm (s_map s) j) -> marks (add_handle s m fresh h).
Proof.
  intros M C F i. cbn [add_handle s_map s_handles]. destruct (F i) as [-> ->], (M i) as [M1 M2]. split; [|exact M2].
  rewrite due_app, gave_not, orb_false_r by exact C. exact M1.
Qed.

Lemma marks_start s m md loc i s1 r : marks s -> (forall j, mark m j = mark (s_map s) j /\ subm m j = subm (s_map s) j) ->
  start_access s m md loc i = (s1, r) -> marks s1.
Proof.
  intros M F H. unfold start_access in H. destruct (alloc_lock m (s_fresh s)) as [[l rest] fresh].
  destruct (may_write _ _); injection H as <- <-; (apply marks_add; [exact M|reflexivity|]); intros j;
    rewrite mark_access, subm_access; exact (F j).
Qed.

Lemma marks_map s m : marks s -> (forall j, mark m j = mark (s_map s) j /\ subm m j = subm (s_map s) j) -> marks (with_map s m).
Proof. intros M F i. cbn [with_map s_map s_handles]. destruct (F i) as [-> ->]. exact (M i). Qed.

Lemma marks_phase s k h ph : marks s -> nth_error (s_handles s) k = Some h ->
  (forall i, gave_back i (with_phase h ph) = gave_back i h) -> marks (set_phase s k h ph).
Proof. intros M E G i. cbn [set_phase s_map s_handles]. rewrite (due_same _ _ _ _ _ E (G i)). exact (M i). Qed.

Lemma same_lists m ls a b c j : mark (set_lists m ls a b c) j = mark m j /\ subm (set_lists m ls a b c) j = subm m j.
Proof. split; reflexivity. Qed.

Lemma marks_access p s md loc s1 r : marks s -> buffer_access p s md loc = Some (s1, r) -> marks s1.
Proof.
  intros M H. unfold buffer_access in H. destruct (mapped_at _ _) as [i|].
  - destruct (access_of _ _) as [[l n]|].
    + destruct (wadd p 32 n 1); injection H as <- <-; try exact M.
      apply marks_add; [exact M|reflexivity|]. intros j. rewrite mark_access, subm_access. split; reflexivity.
    + injection H as H. eapply marks_start; [exact M| |exact H]. intros j. split; reflexivity.
  - destruct (_ =? _)%Z; [discriminate|]. destruct (list_remove _ _ _) as [[a1 ls1]| |]; [|injection H as <- <-; exact M..].
    destruct (list_push_front _ _ _) as [[a2 ls2]| |];
      [|injection H as <- <-; (apply marks_map; [exact M|]); intros j; split; reflexivity..].
    destruct (access_of _ _).
    + injection H as <- <-. apply marks_map; [exact M|]. intros j. split; reflexivity.
    + injection H as H. eapply marks_start; [exact M| |exact H]. intros j. split; reflexivity.
Qed.

Lemma marks_release s k h s1 r : marks s -> nth_error (s_handles s) k = Some h -> h_phase h = Open ->
  release s k h = (s1, r) -> marks s1.
Proof.
  intros M E O H. unfold release in H.
  set (m := match h_mode h with ReadOnly => s_map s | _ => set_dirty (s_map s) (h_index h) end) in *.
  assert (A : forall j, access_of m j = access_of (s_map s) j)
    by (intros j; unfold m; destruct (h_mode h); [reflexivity|apply access_dirty..]).
  destruct (access_of m (h_index h)) as [[l n]|] eqn:Ac; [|injection H as <- <-; exact M].
  rewrite A in Ac.
  assert (L : h_index h < length (p_buffers (s_map s))).
  { apply nth_error_Some. unfold access_of in Ac. intros X. rewrite X in Ac. discriminate. }
  assert (G0 : forall i, gave_back i h = false) by (intros i; apply gave_not; unfold counted; rewrite O; reflexivity).
  assert (F : forall j, mark m j = gave_back j (with_phase h Closing) || mark (s_map s) j /\ subm m j = subm (s_map s) j).
  { intros j. unfold m, gave_back, with_phase. cbn [counted h_phase negb h_mode h_index].
    destruct (h_mode h); cbn [andb orb]; (split; [|try apply subm_dirty; reflexivity]); [reflexivity|apply mark_dirty; exact L..]. }
  assert (Fin : forall m', (forall j, mark m' j = mark m j /\ subm m' j = subm m j) -> marks (set_phase (with_map s m') k h Closing)).
  { intros m' X i. cbn [set_phase with_map s_map s_handles]. destruct (X i) as [-> ->], (F i) as [-> ->], (M i) as [M1 M2].
    rewrite (due_upd _ _ _ _ _ E (or_introl (G0 i))), M1. split; [reflexivity|exact M2]. }
  destruct (negb _); [injection H as <- <-; exact M|]. destruct (_ <? _)%Z.
  - injection H as <- <-. apply Fin. intros j. rewrite mark_access, subm_access. split; reflexivity.
  - destruct (move_buffer _ _ _ _) as [m1| |] eqn:Mv; injection H as <- <-; try exact M.
    apply Fin. intros j. eapply mark_move. exact Mv.
Qed.

Lemma marks_exec p fetch zeros e s s1 r : marks s -> exec p fetch zeros e s = Some (s1, r) -> marks s1.
Proof.
  intros M H. unfold exec in H. destruct e as [md loc|k|k|k pg|k|k|k].
  - eapply marks_access; eauto.
  - destruct (nth_error (s_handles s) k) as [h|] eqn:E; [|discriminate].
    destruct (h_phase h) eqn:P; try discriminate. injection H as H. unfold fill in H.
    assert (G : forall ph i, match ph with Closing | Closed => False | _ => True end ->
                gave_back i (with_phase h ph) = gave_back i h).
    { intros ph i X. rewrite !gave_not; [reflexivity|unfold counted; rewrite P; reflexivity|].
      destruct ph; try contradiction; reflexivity. }
    destruct (match h_mode h with Initialize => _ | _ => _ end); injection H as <- <-.
    + intros i. cbn [s_map s_handles]. rewrite (due_same _ _ _ _ _ E (G Open i Logic.I)). exact (M i).
    + apply marks_phase; [exact M|exact E|]. intros i. apply G. exact Logic.I.
  - destruct (nth_error (s_handles s) k) as [h|] eqn:E; [|discriminate].
    destruct (h_phase h) eqn:P; try discriminate.
    destruct (match h_mode h with ReadOnly => _ | _ => _ end); [|discriminate]. injection H as <- <-.
    apply marks_phase; [exact M|exact E|]. intros i. rewrite !gave_not; [reflexivity|unfold counted; rewrite P; reflexivity|reflexivity].
  - destruct (nth_error (s_handles s) k) as [h|] eqn:E; [|discriminate].
    destruct (h_phase h), (h_mode h); try discriminate; (destruct (_ =? _); [|discriminate]); injection H as <- <-; exact M.
  - destruct (nth_error (s_handles s) k) as [h|] eqn:E; [|discriminate].
    destruct (h_phase h) eqn:P; try discriminate. injection H as H. eapply marks_release; eauto.
  - destruct (nth_error (s_handles s) k) as [h|] eqn:E; [|discriminate].
    destruct (h_phase h) eqn:P; try discriminate. injection H as <- <-.
    apply marks_phase; [exact M|exact E|]. intros i. unfold gave_back, counted. cbn [with_phase h_phase h_mode h_index].
    rewrite P. reflexivity.
  - destruct (nth_error (s_handles s) k) as [h|] eqn:E; [|discriminate].
    destruct (h_phase h) eqn:P; try discriminate; injection H as <- <-;
      (apply marks_phase; [exact M|exact E|]); intros i;
      (rewrite !gave_not; [reflexivity|unfold counted; rewrite P; reflexivity|reflexivity]).
Qed.

Lemma marks_run p fetch zeros es : forall s s1 rs, marks s -> run p fetch zeros es s = Some (s1, rs) -> marks s1.
Proof.
  induction es as [|e es IH]; intros s s1 rs M H; cbn [run] in H; [injection H as <- <-; exact M|].
  destruct (exec p fetch zeros e s) as [[s2 r]|] eqn:E; [|discriminate].
  destruct (run p fetch zeros es s2) as [[s3 rs']|] eqn:R; [|discriminate]. injection H as <- <-.
  eapply IH; [|exact R]. eapply marks_exec; eauto.
Qed.

Lemma marks_new p map_anon bs n m bytes pages : pool_new p map_anon bs n = Ret (Ok (m, bytes)) -> marks (start m pages).
Proof.
  intros H i. cbn [start s_map s_handles due existsb]. unfold pool_new in H.
  repeat match type of H with
  | (check ?b ;; _) = _ => destruct b; cbn [bind] in H; [|discriminate]
  | (_ <- ?a ;; _) = _ => destruct a; cbn [bind] in H; [|discriminate..]
  | (if ?b then _ else _) = _ => destruct b; [discriminate|]
  end.
  injection H as <- <-. unfold mark, subm. cbn [p_buffers].
  destruct (nth_error _ i) as [b|] eqn:E; [|split; reflexivity].
  apply nth_error_In, repeat_spec in E. subst b. split; reflexivity.
Qed.

Lemma marks_reachable p fetch zeros s : reachable p fetch zeros s -> marks s.
Proof.
  intros (map_anon & bs & n & m & bytes & pages & es & rs & E & _ & R & _).
  eapply marks_run; [eapply marks_new; exact E|exact R].
Qed.

Lemma due_iff hs i : due hs i = true <->
  exists h, In h hs /\ h_index h = i /\ h_mode h <> ReadOnly /\ (h_phase h = Closing \/ h_phase h = Closed).
Proof.
  unfold due. rewrite existsb_exists. split.
  - intros [h [A B]]. exists h. split; [exact A|]. unfold gave_back, counted in B.
    apply andb_true_iff in B as [B1 B2]. apply andb_true_iff in B1 as [B0 B1]. apply Nat.eqb_eq in B2. split; [exact B2|].
    destruct (h_mode h), (h_phase h); try discriminate; (split; [discriminate|auto]).
  - intros (h & A & B & C & D). exists h. split; [exact A|]. unfold gave_back, counted. rewrite B, Nat.eqb_refl, andb_true_r.
    destruct (h_mode h); [contradiction|..]; destruct D as [-> | ->]; reflexivity.
Qed.

Lemma dirty_exact p fetch zeros s : reachable p fetch zeros s -> forall i b, nth_error (p_buffers (s_map s)) i = Some b ->
  (b_dirty b = true <->
   exists h, In h (s_handles s) /\ h_index h = i /\ h_mode h <> ReadOnly /\ (h_phase h = Closing \/ h_phase h = Closed)) /\
  b_submitted b = false.
Proof.
  intros R i b E. destruct (marks_reachable _ _ _ _ R i) as [M1 M2]. unfold mark in M1. unfold subm in M2. rewrite E in *.
  split; [|exact M2]. rewrite M1. apply due_iff.
Qed.

(** ** The handles that gave back a written buffer stay *)

Lemma due_grows p fetch zeros e s s1 r : exec p fetch zeros e s = Some (s1, r) -> forall i,
  due (s_handles s) i = true -> due (s_handles s1) i = true.
Proof.
  intros H i D. unfold exec in H. destruct e as [md loc|k|k|k pg|k|k|k].
  - unfold buffer_access, start_access in H.
    repeat match type of H with
    | context [match ?x with _ => _ end] => destruct x
    | context [let '(_, _) := ?x in _] => destruct x
    end; try discriminate; injection H as <- <-; cbn [add_handle with_map s_handles]; rewrite ?due_app, D; reflexivity.
  - destruct (nth_error (s_handles s) k) as [h|] eqn:E; [|discriminate].
    destruct (h_phase h) eqn:P; try discriminate. injection H as H. unfold fill in H.
    destruct (match h_mode h with Initialize => _ | _ => _ end); injection H as <- <-; cbn [set_phase s_handles];
      (rewrite (due_upd _ _ h); [rewrite D; apply orb_true_r|exact E|]; left; apply gave_not; unfold counted; rewrite P; reflexivity).
  - destruct (nth_error (s_handles s) k) as [h|] eqn:E; [|discriminate].
    destruct (h_phase h) eqn:P; try discriminate.
    destruct (match h_mode h with ReadOnly => _ | _ => _ end); [|discriminate]. injection H as <- <-. cbn [set_phase s_handles].
    rewrite (due_upd _ _ h); [rewrite D; apply orb_true_r|exact E|]; left; apply gave_not; unfold counted; rewrite P; reflexivity.
  - destruct (nth_error (s_handles s) k) as [h|] eqn:E; [|discriminate].
    destruct (h_phase h), (h_mode h); try discriminate; (destruct (_ =? _); [|discriminate]); injection H as <- <-; exact D.
  - destruct (nth_error (s_handles s) k) as [h|] eqn:E; [|discriminate].
    destruct (h_phase h) eqn:P; try discriminate. injection H as H. unfold release in H.
    repeat match type of H with
    | match ?x with _ => _ end = (_, _) => destruct x
    end; injection H as <- <-; try exact D; cbn [set_phase with_map s_handles];
      (rewrite (due_upd _ _ h); [rewrite D; apply orb_true_r|exact E|]; left; apply gave_not; unfold counted; rewrite P; reflexivity).
  - destruct (nth_error (s_handles s) k) as [h|] eqn:E; [|discriminate].
    destruct (h_phase h) eqn:P; try discriminate. injection H as <- <-. cbn [set_phase s_handles].
    rewrite (due_upd _ _ h); [rewrite D; apply orb_true_r|exact E|]. right. unfold gave_back, counted.
    cbn [with_phase h_phase h_mode h_index]. rewrite P. reflexivity.
  - destruct (nth_error (s_handles s) k) as [h|] eqn:E; [|discriminate].
    destruct (h_phase h) eqn:P; try discriminate; injection H as <- <-; cbn [set_phase s_handles];
      (rewrite (due_upd _ _ h); [rewrite D; apply orb_true_r|exact E|]; left; apply gave_not; unfold counted; rewrite P; reflexivity).
Qed.

Lemma dirty_forever p fetch zeros s : reachable p fetch zeros s -> forall es s1 rs i b b1,
  run p fetch zeros es s = Some (s1, rs) -> nth_error (p_buffers (s_map s)) i = Some b -> b_dirty b = true ->
  nth_error (p_buffers (s_map s1)) i = Some b1 -> b_dirty b1 = true.
Proof.
  intros R es s1 rs i b b1 H E D E1. pose proof (marks_reachable _ _ _ _ R) as M.
  assert (U : due (s_handles s) i = true) by (rewrite <- (proj1 (M i)); unfold mark; rewrite E; exact D).
  assert (M1 : marks s1) by (eapply marks_run; eauto).
  assert (U1 : due (s_handles s1) i = true).
  { clear - H U. revert s rs H U. induction es as [|e es IH]; intros s rs H U; cbn [run] in H; [injection H as <- <-; exact U|].
    destruct (exec p fetch zeros e s) as [[s2 r]|] eqn:X; [|discriminate].
    destruct (run p fetch zeros es s2) as [[s3 rs']|] eqn:Y; [|discriminate]. injection H as <- <-.
    eapply IH; [exact Y|]. eapply due_grows; eauto. }
  rewrite <- (proj1 (M1 i)) in U1. unfold mark in U1. rewrite E1 in U1. exact U1.
Qed.

(** ** Where the buffer goes *)

Lemma push_head h ls i h' ls' : list_push_front h ls i = Ret (h', ls') -> h_head h' = i.
Proof.
  unfold list_push_front. intros H.
  repeat match type of H with
  | (check ?b ;; _) = _ => destruct b; cbn [bind] in H; [|discriminate]
  | (_ <- ?a ;; _) = _ => destruct a; cbn [bind] in H; [|discriminate..]
  | (if ?b then _ else _) = _ => destruct b
  end; injection H as <- <-; reflexivity.
Qed.

Lemma released_to p fetch zeros s : reachable p fetch zeros s -> forall k h l s1 b,
  nth_error (s_handles s) k = Some h -> access_of (s_map s) (h_index h) = Some (l, 1%Z) ->
  exec p fetch zeros (ERelease k) s = Some (s1, None) -> nth_error (p_buffers (s_map s1)) (h_index h) = Some b ->
  b_access b = None /\
  if b_dirty b
  then h_head (p_dirty (s_map s1)) = Z.of_nat (h_index h) /\ p_available (s_map s1) = p_available (s_map s)
  else h_head (p_available (s_map s1)) = Z.of_nat (h_index h) /\ p_dirty (s_map s1) = p_dirty (s_map s).
Proof.
  intros R k h l s1 b E A H N. cbn [exec] in H. rewrite E in H. destruct (h_phase h); try discriminate. injection H as H.
  unfold release in H.
  set (m := match h_mode h with ReadOnly => s_map s | _ => set_dirty (s_map s) (h_index h) end) in *.
  assert (A' : access_of m (h_index h) = Some (l, 1%Z))
    by (unfold m; destruct (h_mode h); rewrite ?access_dirty; exact A).
  assert (L : p_dirty m = p_dirty (s_map s) /\ p_available m = p_available (s_map s)).
  { unfold m, set_dirty. clear. destruct (h_mode h); [split; reflexivity|..]; destruct (nth_error (p_buffers _) _); split; reflexivity. }
  rewrite A' in H. cbn [Z.ltb Z.compare negb Pos.compare Pos.compare_cont] in H.
  fold (mark m (h_index h)) in H.
  destruct (move_buffer _ _ _ _) as [m1| |] eqn:V; [|discriminate..]. injection H as <-.
  cbn [set_phase with_map s_map] in *.
  assert (B : b_dirty b = mark m (h_index h)).
  { rewrite <- (proj1 (mark_move _ _ _ _ _ (h_index h) V)). unfold mark. rewrite N. reflexivity. }
  split.
  - rewrite (move_buffers _ _ _ _ _ V) in N. unfold set_access in N.
    destruct (nth_error (p_buffers m) (h_index h)) as [b0|] eqn:E0; [|rewrite E0 in N; discriminate]. cbn [p_buffers] in N.
    rewrite nth_upd, Nat.eqb_refl in N by (eapply upd_out; eauto). injection N as <-. reflexivity.
  - rewrite B. unfold move_buffer in V.
    assert (X : p_dirty (set_locks (set_access m (h_index h) None) (l :: p_locks m)) = p_dirty m /\
                p_available (set_locks (set_access m (h_index h) None) (l :: p_locks m)) = p_available m).
    { clear. unfold set_access. destruct (nth_error (p_buffers _) _); split; reflexivity. }
    assert (Sm : (Z.of_nat (h_index h) mod 2 ^ 32 = Z.of_nat (h_index h))%Z).
    { pose proof (lo_small _ (iv_lists _ (reachable_inv _ _ _ _ R))) as Q. pose proof (access_in_range _ _ _ A) as Q2.
      clear - Q Q2. unfold nil_index in Q. apply Z.mod_small. lia. }
    destruct X as [X1 X2], L as [L1 L2]. rewrite X1, X2, L1, L2, Sm in V.
    destruct (list_remove _ _ _) as [[u1 ls1]| |]; cbn [bind] in V; [|discriminate..].
    destruct (mark m (h_index h)); destruct (list_push_front _ _ _) as [[a ls2]| |] eqn:P; cbn [bind] in V; try discriminate;
      injection V as <-; cbn [set_lists p_dirty p_available]; (split; [|reflexivity]); eapply push_head; exact P.
Qed.
