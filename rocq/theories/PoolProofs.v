(** * Invariant of the buffer pool *)

From Coq Require Import ZifyBool ZifyNat ZifyN.
From Verif Require Import Base BaseFacts StorageModel StorageSpec ListPtr StorageProofs PoolModel PoolSpec.
Local Open Scope nat_scope.
Ltac Zify.zify_post_hook ::= Z.div_mod_to_equations.

(** ** Updates *)

Lemma upd_length {A} (l : list A) i a : i < length l -> length (upd l i a) = length l.
Proof. intros H. unfold upd. rewrite app_length. cbn [length]. rewrite firstn_length, skipn_length. lia. Qed.

Lemma nth_upd {A} (l : list A) i a j : i < length l -> nth_error (upd l i a) j = if j =? i then Some a else nth_error l j.
Proof.
  intros H. assert (E : set l (Z.of_nat i) a = Ret (upd l i a)).
  { unfold set. rewrite Nat2Z.id. replace (i <? length l) with true by lia. reflexivity. }
  destruct (set_nth _ _ _ _ E) as [_ [N _]]. apply N.
Qed.

Lemma in_upd {A} (l : list A) i a x : i < length l -> In x (upd l i a) -> x = a \/ exists j, j <> i /\ nth_error l j = Some x.
Proof.
  intros H I. apply In_nth_error in I as [j E]. rewrite nth_upd in E by exact H.
  destruct (Nat.eqb_spec j i); [left; congruence|right; eauto].
Qed.

Lemma split_upd {A} (l : list A) i a b : nth_error l i = Some a ->
  exists x y, l = x ++ a :: y /\ upd l i b = x ++ b :: y /\ length x = i.
Proof.
  intros H. apply nth_error_split in H as [x [y [-> L]]]. exists x, y. split; [reflexivity|]. split; [|exact L].
  unfold upd. subst i. rewrite firstn_app, Nat.sub_diag, firstn_all. cbn [firstn]. rewrite app_nil_r. f_equal. f_equal.
  rewrite skipn_app. rewrite skipn_all2 by lia. replace (S (length x) - length x) with 1 by lia. reflexivity.
Qed.

(** ** Counting *)

Lemma count_app i hs hs' : count i (hs ++ hs') = count i hs + count i hs'.
Proof. unfold count. rewrite filter_app, app_length. reflexivity. Qed.

Lemma count_cons i h hs : count i (h :: hs) = (if counted h && (h_index h =? i) then 1 else 0) + count i hs.
Proof. unfold count. cbn [filter]. destruct (_ && _); reflexivity. Qed.

Lemma count_upd i hs k h h' : nth_error hs k = Some h ->
  count i (upd hs k h') + (if counted h && (h_index h =? i) then 1 else 0)
  = count i hs + (if counted h' && (h_index h' =? i) then 1 else 0).
Proof.
  intros H. destruct (split_upd _ _ _ h' H) as [x [y [-> [-> _]]]]. rewrite !count_app, !count_cons. lia.
Qed.

Lemma count_le i hs : count i hs <= length hs.
Proof. unfold count. induction hs as [|h hs IH]; [cbn; lia|]. cbn [filter]. destruct (_ && _); cbn [length]; lia. Qed.

Lemma count_zero i hs : count i hs = 0 <-> forall h, In h hs -> counted h = true -> h_index h <> i.
Proof.
  induction hs as [|h hs IH]; [cbn; split; [intros _ h []|reflexivity]|].
  rewrite count_cons. split.
  - intros H x [->|I] C.
    + rewrite C in H. destruct (Nat.eqb_spec (h_index x) i); [cbn in H; lia|assumption].
    + apply IH; auto. lia.
  - intros H. assert (count i hs = 0) as -> by (apply IH; intros; apply H; cbn; auto).
    destruct (counted h) eqn:C; cbn [andb]; [|reflexivity].
    destruct (Nat.eqb_spec (h_index h) i) as [E|]; [|reflexivity]. exfalso. exact (H h (or_introl eq_refl) C E).
Qed.

Lemma count_pos i hs h : In h hs -> counted h = true -> h_index h = i -> 0 < count i hs.
Proof.
  intros I C E. destruct (count i hs) eqn:Z; [|lia]. exfalso. apply (proj1 (count_zero i hs) Z h I C E).
Qed.

(** ** Lists stay in range *)

Definition in_range (n : nat) (z : Z) : Prop := z = nil_index \/ exists i, z = Z.of_nat i /\ i < n.

Record lists_ok (m : mapping) : Prop := {
  lo_len : length (p_links m) = length (p_buffers m);
  lo_small : (Z.of_nat (length (p_buffers m)) < nil_index)%Z;
  lo_links : forall k, In k (p_links m) -> in_range (length (p_links m)) (prev k) /\ in_range (length (p_links m)) (next k);
  lo_in_use : in_range (length (p_links m)) (h_head (p_in_use m)) /\ in_range (length (p_links m)) (h_tail (p_in_use m));
  lo_available : in_range (length (p_links m)) (h_head (p_available m)) /\ in_range (length (p_links m)) (h_tail (p_available m));
  lo_dirty : in_range (length (p_links m)) (h_head (p_dirty m)) /\ in_range (length (p_links m)) (h_tail (p_dirty m));
  lo_available_some : h_head (p_available m) <> nil_index /\ h_tail (p_available m) <> nil_index;
  lo_dirty_both : h_head (p_dirty m) = nil_index <-> h_tail (p_dirty m) = nil_index
}.

Definition links_ok (ls : list link) : Prop :=
  forall k, In k ls -> in_range (length ls) (prev k) /\ in_range (length ls) (next k).

Definition head_ok (ls : list link) (h : head) : Prop :=
  in_range (length ls) (h_head h) /\ in_range (length ls) (h_tail h).

Lemma set_next_range ls i z : links_ok ls -> i < length ls -> in_range (length ls) z ->
  exists ls', set_next ls (Z.of_nat i) z = Ret ls' /\ length ls' = length ls /\ links_ok ls' /\
    forall j, nth_error ls' j = if j =? i then option_map (fun k => {| prev := prev k; next := z |}) (nth_error ls i) else nth_error ls j.
Proof.
  intros L H R. destruct (nth_error ls i) as [k|] eqn:K; [|apply nth_error_None in K; lia].
  destruct (set_next_ok _ _ _ z K) as [ls' [E [Len N]]]. exists ls'. split; [exact E|]. split; [exact Len|]. split; [|exact N].
  intros x I. rewrite Len. apply In_nth_error in I as [j J]. rewrite N in J. destruct (j =? i).
  - injection J as <-. cbn. split; [|exact R]. apply L. eapply nth_error_In; eauto.
  - apply L. eapply nth_error_In; eauto.
Qed.

Lemma set_prev_range ls i z : links_ok ls -> i < length ls -> in_range (length ls) z ->
  exists ls', set_prev ls (Z.of_nat i) z = Ret ls' /\ length ls' = length ls /\ links_ok ls' /\
    forall j, nth_error ls' j = if j =? i then option_map (fun k => {| prev := z; next := next k |}) (nth_error ls i) else nth_error ls j.
Proof.
  intros L H R. destruct (nth_error ls i) as [k|] eqn:K; [|apply nth_error_None in K; lia].
  destruct (set_prev_ok _ _ _ z K) as [ls' [E [Len N]]]. exists ls'. split; [exact E|]. split; [exact Len|]. split; [|exact N].
  intros x I. rewrite Len. apply In_nth_error in I as [j J]. rewrite N in J. destruct (j =? i).
  - injection J as <-. cbn. split; [exact R|]. apply L. eapply nth_error_In; eauto.
  - apply L. eapply nth_error_In; eauto.
Qed.

Lemma remove_range ls h i : links_ok ls -> head_ok ls h -> i < length ls -> (Z.of_nat (length ls) < nil_index)%Z ->
  exists h' ls' k, nth_error ls i = Some k /\ list_remove h ls (Z.of_nat i) = Ret (h', ls') /\ length ls' = length ls /\
    links_ok ls' /\ head_ok ls' h' /\ nth_error ls' i = Some link_default /\
    h_tail h' = (if (next k =? nil_index)%Z then prev k else h_tail h) /\
    h_head h' = (if (prev k =? nil_index)%Z then next k else h_head h).
Proof.
  intros L [Hh Ht] H Sm. unfold list_remove. rewrite get_nat.
  destruct (nth_error ls i) as [k|] eqn:K; [|apply nth_error_None in K; lia]. cbn [bind].
  destruct (L k (nth_error_In _ _ K)) as [Rp Rn].
  assert (NilR : forall n, in_range n nil_index) by (intros; now left).
  (* first update *)
  assert (S1 : exists h1 ls1, (if negb (next k =? nil_index)%Z
                 then ls1 <- set_prev ls (next k) (prev k) ;; Ret (h, ls1)
                 else Ret ({| h_head := h_head h; h_tail := prev k |}, ls)) = Ret (h1, ls1) /\
              length ls1 = length ls /\ links_ok ls1 /\ h_head h1 = h_head h /\
              h_tail h1 = (if (next k =? nil_index)%Z then prev k else h_tail h)).
  { destruct (Z.eqb_spec (next k) nil_index) as [E|E]; cbn [negb].
    - do 2 eexists. split; [reflexivity|]. repeat (split; [solve [auto]|]). reflexivity.
    - destruct Rn as [Rn|[j [-> Rj]]]; [contradiction|].
      destruct (set_prev_range ls j (prev k) L Rj Rp) as [ls1 [-> [Len [L1 _]]]]. cbn [bind].
      do 2 eexists. split; [reflexivity|]. auto. }
  destruct S1 as [h1 [ls1 [-> [Len1 [L1 [Hh1 Ht1]]]]]]. cbn [bind].
  assert (S2 : exists h2 ls2, (if negb (prev k =? nil_index)%Z
                 then ls2 <- set_next ls1 (prev k) (next k) ;; Ret (h1, ls2)
                 else Ret ({| h_head := next k; h_tail := h_tail h1 |}, ls1)) = Ret (h2, ls2) /\
              length ls2 = length ls /\ links_ok ls2 /\ h_tail h2 = h_tail h1 /\
              h_head h2 = (if (prev k =? nil_index)%Z then next k else h_head h)).
  { destruct (Z.eqb_spec (prev k) nil_index) as [E|E]; cbn [negb].
    - do 2 eexists. split; [reflexivity|]. repeat (split; [solve [auto]|]). reflexivity.
    - destruct Rp as [Rp|[j [-> Rj]]]; [contradiction|].
      destruct (set_next_range ls1 j (next k) L1 ltac:(lia) ltac:(rewrite Len1; exact Rn)) as [ls2 [-> [Len [L2 _]]]]. cbn [bind].
      do 2 eexists. split; [reflexivity|]. split; [congruence|]. auto. }
  destruct S2 as [h2 [ls2 [-> [Len2 [L2 [Ht2 Hh2]]]]]]. cbn [bind].
  destruct (set_next_range ls2 i nil_index L2 ltac:(lia) (NilR _)) as [ls3 [-> [Len3 [L3 N3]]]]. cbn [bind].
  destruct (set_prev_range ls3 i nil_index L3 ltac:(lia) (NilR _)) as [ls4 [-> [Len4 [L4 N4]]]]. cbn [bind].
  exists h2, ls4, k. split; [reflexivity|]. split; [reflexivity|]. split; [congruence|]. split; [exact L4|].
  split.
  { unfold head_ok. rewrite Len4, Len3, Len2, Hh2, Ht2, Ht1.
    split; [destruct (prev k =? nil_index)%Z; auto|destruct (next k =? nil_index)%Z; auto]. }
  split.
  { rewrite N4, Nat.eqb_refl, N3, Nat.eqb_refl. destruct (nth_error ls2 i) eqn:X; [reflexivity|].
    apply nth_error_None in X. lia. }
  split; [congruence|exact Hh2].
Qed.

Lemma push_range ls h i : links_ok ls -> head_ok ls h -> i < length ls -> (Z.of_nat (length ls) < nil_index)%Z ->
  nth_error ls i = Some link_default -> (h_head h = nil_index <-> h_tail h = nil_index) ->
  exists h' ls', list_push_front h ls (Z.of_nat i) = Ret (h', ls') /\ length ls' = length ls /\
    links_ok ls' /\ head_ok ls' h' /\ h_head h' <> nil_index /\ h_tail h' <> nil_index.
Proof.
  intros L [Hh Ht] H Sm D B. unfold list_push_front. rewrite get_nat, D. cbn [bind link_default next prev].
  rewrite Z.eqb_refl.
  assert (Ri : in_range (length ls) (Z.of_nat i)) by (right; eauto).
  assert (Ni : Z.of_nat i <> nil_index) by lia.
  destruct (Z.eqb_spec (h_head h) nil_index) as [E|E]; cbn [negb].
  - replace (h_tail h =? nil_index)%Z with true by (symmetry; apply Z.eqb_eq; tauto).
    do 2 eexists. split; [reflexivity|]. split; [reflexivity|]. split; [exact L|]. split; [split; assumption|]. split; assumption.
  - destruct (Z.eqb_spec (h_tail h) nil_index) as [E2|E2]; [tauto|]. cbn [negb].
    destruct (set_next_range ls i (h_head h) L H Hh) as [ls1 [-> [Len1 [L1 _]]]]. cbn [bind].
    destruct Hh as [Hh|[j [Hj Rj]]]; [contradiction|]. rewrite Hj.
    destruct (set_prev_range ls1 j (Z.of_nat i) L1 ltac:(lia) ltac:(rewrite Len1; exact Ri)) as [ls2 [-> [Len2 [L2 _]]]]. cbn [bind].
    do 2 eexists. split; [reflexivity|]. split; [congruence|]. split; [exact L2|].
    unfold head_ok. rewrite Len2, Len1. cbn. auto.
Qed.

(** ** The invariant *)

Record inv (s : state) : Prop := {
  iv_lists : lists_ok (s_map s);
  iv_pages : length (s_pages s) = length (p_buffers (s_map s));
  iv_count : forall i, match access_of (s_map s) i with
                       | None => count i (s_handles s) = 0
                       | Some (l, c) => c = Z.of_nat (count i (s_handles s)) /\ 0 < count i (s_handles s) /\
                           l < s_fresh s /\ ~ In l (p_locks (s_map s)) /\
                           forall h, In h (s_handles s) -> counted h = true -> h_index h = i -> h_lock h = l
                       end;
  iv_locks : forall i j l c c', access_of (s_map s) i = Some (l, c) -> access_of (s_map s) j = Some (l, c') -> i = j;
  iv_free : NoDup (p_locks (s_map s)) /\ forall l, In l (p_locks (s_map s)) -> l < s_fresh s;
  iv_handles : forall h, In h (s_handles s) -> h_index h < length (p_buffers (s_map s)) /\ h_lock h < s_fresh s /\
                 mapped_at (s_map s) (h_loc h) = Some (h_index h);
  iv_mapped : forall loc i, mapped_at (s_map s) loc = Some i -> i < length (p_buffers (s_map s));
  iv_guards : forall k1 k2 h1 h2, nth_error (s_handles s) k1 = Some h1 -> nth_error (s_handles s) k2 = Some h2 ->
                k1 <> k2 -> h_lock h1 = h_lock h2 -> guard_of h1 = WriteGuard -> guard_of h2 = NoGuard
}.

Lemma access_in_range m i a : access_of m i = Some a -> i < length (p_buffers m).
Proof.
  unfold access_of. destruct (nth_error (p_buffers m) i) eqn:E; [|discriminate]. intros _. apply nth_error_Some. congruence.
Qed.

Lemma set_access_at m i a : i < length (p_buffers m) -> forall j,
  access_of (set_access m i a) j = if j =? i then a else access_of m j.
Proof.
  intros H j. unfold set_access. destruct (nth_error (p_buffers m) i) as [b|] eqn:E; [|apply nth_error_None in E; lia].
  unfold access_of. cbn [p_buffers]. rewrite nth_upd by exact H. destruct (j =? i); reflexivity.
Qed.

Lemma set_access_frame m i a :
  length (p_buffers (set_access m i a)) = length (p_buffers m) /\ p_links (set_access m i a) = p_links m /\
  p_mapped (set_access m i a) = p_mapped m /\ p_locks (set_access m i a) = p_locks m /\
  p_in_use (set_access m i a) = p_in_use m /\ p_dirty (set_access m i a) = p_dirty m /\
  p_available (set_access m i a) = p_available m.
Proof.
  unfold set_access. destruct (nth_error (p_buffers m) i) as [b|] eqn:E; [|tauto]. cbn.
  rewrite upd_length by (apply nth_error_Some; congruence). tauto.
Qed.

Lemma set_dirty_frame m i :
  length (p_buffers (set_dirty m i)) = length (p_buffers m) /\ p_links (set_dirty m i) = p_links m /\
  p_mapped (set_dirty m i) = p_mapped m /\ p_locks (set_dirty m i) = p_locks m /\
  p_in_use (set_dirty m i) = p_in_use m /\ p_dirty (set_dirty m i) = p_dirty m /\
  p_available (set_dirty m i) = p_available m /\ (forall j, access_of (set_dirty m i) j = access_of m j).
Proof.
  unfold set_dirty. destruct (nth_error (p_buffers m) i) as [b|] eqn:E; [|tauto]. cbn.
  rewrite upd_length by (apply nth_error_Some; congruence). repeat (split; [reflexivity|]).
  intros j. unfold access_of. cbn [p_buffers]. rewrite nth_upd by (apply nth_error_Some; congruence).
  destruct (Nat.eqb_spec j i) as [->|]; [rewrite E; reflexivity|reflexivity].
Qed.

Lemma mapped_at_ext m m' : p_mapped m = p_mapped m' -> forall loc, mapped_at m loc = mapped_at m' loc.
Proof. intros H loc. unfold mapped_at. now rewrite H. Qed.

Lemma lists_ok_ext m m' : lists_ok m ->
  p_links m' = p_links m -> length (p_buffers m') = length (p_buffers m) -> p_in_use m' = p_in_use m ->
  p_dirty m' = p_dirty m -> p_available m' = p_available m -> lists_ok m'.
Proof. intros [A B C D E F G H] H1 H2 H3 H4 H5. constructor; rewrite ?H1, ?H2, ?H3, ?H4, ?H5; assumption. Qed.

(** ** Steps that change the phase of one handle only *)

Lemma guards_upd hs k h h' :
  (forall k1 k2 h1 h2, nth_error hs k1 = Some h1 -> nth_error hs k2 = Some h2 ->
     k1 <> k2 -> h_lock h1 = h_lock h2 -> guard_of h1 = WriteGuard -> guard_of h2 = NoGuard) ->
  nth_error hs k = Some h -> h_lock h' = h_lock h ->
  (forall k2 h2, k2 <> k -> nth_error hs k2 = Some h2 -> h_lock h2 = h_lock h ->
     (guard_of h' = WriteGuard -> guard_of h2 = NoGuard) /\ (guard_of h2 = WriteGuard -> guard_of h' = NoGuard)) ->
  forall k1 k2 h1 h2, nth_error (upd hs k h') k1 = Some h1 -> nth_error (upd hs k h') k2 = Some h2 ->
     k1 <> k2 -> h_lock h1 = h_lock h2 -> guard_of h1 = WriteGuard -> guard_of h2 = NoGuard.
Proof.
  intros G K L W k1 k2 h1 h2 E1 E2 N EL GW. assert (Lk : k < length hs) by (apply nth_error_Some; congruence).
  rewrite nth_upd in E1, E2 by exact Lk.
  destruct (Nat.eqb_spec k1 k) as [->|N1]; destruct (Nat.eqb_spec k2 k) as [->|N2].
  - congruence.
  - injection E1 as <-. eapply (W k2 h2); eauto. congruence.
  - injection E2 as <-. eapply (W k1 h1); eauto. congruence.
  - eauto.
Qed.

Lemma inv_phase s k h ph pgs :
  inv s -> nth_error (s_handles s) k = Some h ->
  counted (with_phase h ph) = counted h ->
  length pgs = length (s_pages s) ->
  (forall k2 h2, k2 <> k -> nth_error (s_handles s) k2 = Some h2 -> h_lock h2 = h_lock h ->
     (guard_of (with_phase h ph) = WriteGuard -> guard_of h2 = NoGuard) /\
     (guard_of h2 = WriteGuard -> guard_of (with_phase h ph) = NoGuard)) ->
  inv {| s_map := s_map s; s_pages := pgs; s_handles := upd (s_handles s) k (with_phase h ph); s_fresh := s_fresh s |}.
Proof.
  intros I K C P W. assert (Lk : k < length (s_handles s)) by (apply nth_error_Some; congruence).
  assert (Cn : forall i, count i (upd (s_handles s) k (with_phase h ph)) = count i (s_handles s)).
  { intros i. pose proof (count_upd i _ _ _ (with_phase h ph) K) as X. rewrite C in X. cbn [with_phase h_index] in X. lia. }
  assert (In_ : forall x, In x (upd (s_handles s) k (with_phase h ph)) ->
                 exists y, In y (s_handles s) /\ h_index x = h_index y /\ h_lock x = h_lock y /\ h_loc x = h_loc y /\ counted x = counted y).
  { intros x X. apply in_upd in X; [|exact Lk]. destruct X as [->|[j [_ J]]].
    - exists h. split; [eapply nth_error_In; eauto|]. cbn. auto.
    - exists x. split; [eapply nth_error_In; eauto|]. auto. }
  destruct I as [A B D E F G M Q]. constructor; cbn [s_map s_pages s_handles s_fresh]; auto.
  - congruence.
  - intros i. specialize (D i). destruct (access_of (s_map s) i) as [[l c]|]; rewrite Cn; [|exact D].
    destruct D as (D1 & D2 & D3 & D4 & D5). repeat (split; [assumption|]).
    intros x X Cx Ix. destruct (In_ x X) as [y (Y1 & Y2 & Y3 & _ & Y5)]. rewrite Y3. apply D5; congruence.
  - intros x X. destruct (In_ x X) as [y (Y1 & Y2 & Y3 & Y4 & _)]. rewrite Y2, Y3, Y4. auto.
  - eapply guards_upd; eauto.
Qed.

Lemma may_write_spec hs l : may_write hs l = true <-> forall h, In h hs -> h_lock h = l -> guard_of h = NoGuard.
Proof.
  unfold may_write. rewrite forallb_forall. split; intros H h I.
  - intros L. specialize (H h I). destruct (guard_of h); [reflexivity| |]; rewrite L, Nat.eqb_refl in H; discriminate.
  - destruct (guard_of h) eqn:G; [reflexivity| |]; destruct (Nat.eqb_spec (h_lock h) l) as [E|]; try reflexivity;
      rewrite (H h I E) in G; discriminate.
Qed.

Lemma may_read_spec hs l : may_read hs l = true <-> forall h, In h hs -> h_lock h = l -> guard_of h <> WriteGuard.
Proof.
  unfold may_read. rewrite forallb_forall. split; intros H h I.
  - intros L G. specialize (H h I). rewrite G, L, Nat.eqb_refl in H. discriminate.
  - destruct (guard_of h) eqn:G; try reflexivity. destruct (Nat.eqb_spec (h_lock h) l) as [E|]; [|reflexivity].
    exfalso. exact (H h I E G).
Qed.

(** A change that does not strengthen the guard. *)
Lemma weaker_guard s k h ph :
  inv s -> nth_error (s_handles s) k = Some h ->
  guard_of (with_phase h ph) = NoGuard \/ guard_of (with_phase h ph) = guard_of h \/ guard_of h = WriteGuard ->
  forall k2 h2, k2 <> k -> nth_error (s_handles s) k2 = Some h2 -> h_lock h2 = h_lock h ->
     (guard_of (with_phase h ph) = WriteGuard -> guard_of h2 = NoGuard) /\
     (guard_of h2 = WriteGuard -> guard_of (with_phase h ph) = NoGuard).
Proof.
  intros I K W k2 h2 N K2 L. pose proof (iv_guards s I) as G. split; intros X.
  - destruct W as [W|[W|W]]; [congruence| |]; eapply (G k k2 h h2); eauto; congruence.
  - pose proof (G k2 k h2 h K2 K N L X) as Y. destruct W as [W|[W|W]]; congruence.
Qed.

(** ** Access *)

Lemma guards_add hs h :
  (forall k1 k2 h1 h2, nth_error hs k1 = Some h1 -> nth_error hs k2 = Some h2 ->
     k1 <> k2 -> h_lock h1 = h_lock h2 -> guard_of h1 = WriteGuard -> guard_of h2 = NoGuard) ->
  (guard_of h = NoGuard \/ forall x, In x hs -> h_lock x = h_lock h -> guard_of x = NoGuard) ->
  forall k1 k2 h1 h2, nth_error (hs ++ [h]) k1 = Some h1 -> nth_error (hs ++ [h]) k2 = Some h2 ->
     k1 <> k2 -> h_lock h1 = h_lock h2 -> guard_of h1 = WriteGuard -> guard_of h2 = NoGuard.
Proof.
  intros G W k1 k2 h1 h2 E1 E2 N L X.
  assert (D : forall k x, nth_error (hs ++ [h]) k = Some x -> (k < length hs /\ nth_error hs k = Some x) \/ (k = length hs /\ x = h)).
  { intros k x E. destruct (Nat.lt_ge_cases k (length hs)) as [K|K].
    - left. rewrite nth_error_app1 in E by exact K. auto.
    - right. rewrite nth_error_app2 in E by exact K. destruct (k - length hs) as [|q] eqn:Q; cbn in E; [|destruct q; discriminate].
      split; [lia|congruence]. }
  destruct (D _ _ E1) as [[L1 F1]|[-> ->]]; destruct (D _ _ E2) as [[L2 F2]|[-> ->]].
  - eauto.
  - destruct W as [W|W]; [exact W|]. rewrite (W h1) in X; [discriminate|eapply nth_error_In; eauto|exact L].
  - destruct W as [W|W]; [congruence|]. apply W; [eapply nth_error_In; eauto|congruence].
  - lia.
Qed.

Lemma inv_start s m md loc i :
  inv (with_map s m) -> access_of m i = None -> mapped_at m loc = Some i -> inv (fst (start_access s m md loc i)).
Proof.
  intros I Ac Mp. destruct I as [A B D E F G M Q]. cbn [with_map s_map s_pages s_handles s_fresh] in *.
  assert (Li : i < length (p_buffers m)) by eauto.
  assert (Al : exists l rest fresh, alloc_lock m (s_fresh s) = (l, rest, fresh) /\ l < fresh /\ s_fresh s <= fresh /\
               ~ In l rest /\ NoDup rest /\ (forall x, In x rest -> In x (p_locks m)) /\
               (forall j c, access_of m j <> Some (l, c))).
  { unfold alloc_lock. destruct F as [F1 F2]. destruct (p_locks m) as [|l rest] eqn:PL.
    - exists (s_fresh s), [], (S (s_fresh s)). split; [reflexivity|]. split; [lia|]. split; [lia|]. split; [tauto|].
      split; [constructor|]. split; [tauto|]. intros j c X. specialize (D j). rewrite X in D. lia.
    - exists l, rest, (s_fresh s). apply NoDup_cons_iff in F1 as [F1 F3].
      split; [reflexivity|]. split; [apply F2; now left|]. split; [lia|]. split; [exact F1|]. split; [exact F3|].
      split; [intros; now right|]. intros j c X. specialize (D j). rewrite X in D.
      destruct D as (_ & _ & _ & D & _). apply D. now left. }
  destruct Al as [l [rest [fresh (EA & L1 & L2 & L3 & L4 & L5 & L6)]]]. unfold start_access. rewrite EA.
  set (m1 := set_access (set_locks m rest) i (Some (l, 1%Z))).
  assert (X : forall ph, counted {| h_mode := md; h_loc := loc; h_index := i; h_lock := l; h_phase := ph |} = true ->
    (guard_of {| h_mode := md; h_loc := loc; h_index := i; h_lock := l; h_phase := ph |} = NoGuard \/ may_write (s_handles s) l = true) ->
    inv (add_handle s m1 fresh {| h_mode := md; h_loc := loc; h_index := i; h_lock := l; h_phase := ph |})).
  2: { destruct (may_write (s_handles s) l) eqn:MW; apply X; auto. }
  intros ph Cd Gd.
  destruct (set_access_frame (set_locks m rest) i (Some (l, 1%Z))) as (S1 & S2 & S3 & S4 & S5 & S6 & S7).
  pose proof (set_access_at (set_locks m rest) i (Some (l, 1%Z)) Li) as S8. fold m1 in S1, S2, S3, S4, S5, S6, S7, S8.
  cbn [set_locks p_buffers p_links p_mapped p_locks p_in_use p_dirty p_available] in *.
  change (access_of (set_locks m rest)) with (access_of m) in S8.
  assert (Z0 : count i (s_handles s) = 0) by (specialize (D i); rewrite Ac in D; exact D).
  constructor; cbn [add_handle s_map s_pages s_handles s_fresh].
  - eapply lists_ok_ext; eauto.
  - congruence.
  - intros j. rewrite S8, count_app, count_cons, Cd. cbn [h_index andb count filter length].
    destruct (Nat.eqb_spec j i) as [->|N].
    + rewrite Nat.eqb_refl, Z0, S4. split; [reflexivity|]. split; [cbn; lia|]. split; [exact L1|]. split; [exact L3|].
      intros h I C X. apply in_app_or in I as [I|[<-|[]]]; [|reflexivity].
      exfalso. exact (proj1 (count_zero i _) Z0 h I C X).
    + replace (i =? j) with false by lia. change (count j []) with 0. rewrite !Nat.add_0_r. specialize (D j).
      destruct (access_of m j) as [[l' c']|]; [|exact D]. destruct D as (D1 & D2 & D3 & D4 & D5).
      split; [exact D1|]. split; [exact D2|]. split; [lia|]. split; [rewrite S4; intros X; apply D4; auto|].
      intros h I C X. apply in_app_or in I as [I|[<-|[]]]; [auto|]. cbn in X. congruence.
  - intros j j' x c c'. rewrite !S8. destruct (Nat.eqb_spec j i) as [->|N], (Nat.eqb_spec j' i) as [->|N'].
    + reflexivity.
    + intros X Y. exfalso. apply (L6 j' c'). congruence.
    + intros X Y. exfalso. apply (L6 j c). congruence.
    + eauto.
  - rewrite S4. split; [exact L4|]. intros x X. destruct F as [_ F]. specialize (F x (L5 x X)). lia.
  - rewrite S1. intros h I. rewrite (mapped_at_ext m1 m S3). apply in_app_or in I as [I|[<-|[]]].
    + destruct (G h I) as (G1 & G2 & G3). split; [exact G1|]. split; [lia|exact G3].
    + cbn. auto.
  - rewrite S1. intros loc' j. rewrite (mapped_at_ext m1 m S3). apply M.
  - apply guards_add; [exact Q|]. destruct Gd as [Gd|Gd]; [now left|right]. now apply may_write_spec.
Qed.

Lemma inv_with_lists s ls u d a :
  inv s -> lists_ok (set_lists (s_map s) ls u d a) -> inv (with_map s (set_lists (s_map s) ls u d a)).
Proof. intros [A B D E F G M Q] L. constructor; cbn [with_map s_map s_pages s_handles s_fresh]; auto. Qed.

Lemma inv_insert s loc i :
  inv s -> mapped_at (s_map s) loc = None -> i < length (p_buffers (s_map s)) ->
  inv (with_map s (insert_mapped (s_map s) loc (Z.of_nat i))).
Proof.
  intros [A B D E F G M Q] N L.
  assert (X : forall x, mapped_at (insert_mapped (s_map s) loc (Z.of_nat i)) x = if (loc =? x)%Z then Some i else mapped_at (s_map s) x).
  { intros x. unfold mapped_at, insert_mapped. cbn [p_mapped find fst]. destruct (loc =? x)%Z; [cbn; now rewrite Nat2Z.id|reflexivity]. }
  constructor; cbn [with_map s_map s_pages s_handles s_fresh insert_mapped p_buffers p_locks p_links]; auto.
  - destruct A as [A1 A2 A3 A4 A5 A6 A7 A8]. constructor; auto.
  - intros h I. destruct (G h I) as (G1 & G2 & G3). split; [exact G1|]. split; [exact G2|].
    change ({| p_links := _; p_buffers := _; p_mapped := _; p_locks := _; p_in_use := _; p_dirty := _; p_available := _ |})
      with (insert_mapped (s_map s) loc (Z.of_nat i)).
    rewrite X. destruct (Z.eqb_spec loc (h_loc h)) as [->|]; [congruence|exact G3].
  - intros x j. change ({| p_links := _; p_buffers := _; p_mapped := _; p_locks := _; p_in_use := _; p_dirty := _; p_available := _ |})
      with (insert_mapped (s_map s) loc (Z.of_nat i)).
    rewrite X. destruct (loc =? x)%Z; [congruence|apply M].
Qed.

(** What happens to a location that is not mapped. *)
Lemma access_unmapped p s md loc : inv s -> mapped_at (s_map s) loc = None ->
  exists i s1, i < length (p_buffers (s_map s)) /\ h_tail (p_available (s_map s)) = Z.of_nat i /\
    inv s1 /\ s_pages s1 = s_pages s /\ s_handles s1 = s_handles s /\ s_fresh s1 = s_fresh s /\
    p_buffers (s_map s1) = p_buffers (s_map s) /\ p_locks (s_map s1) = p_locks (s_map s) /\
    (forall x, mapped_at (s_map s1) x = if (loc =? x)%Z then Some i else mapped_at (s_map s) x) /\
    buffer_access p s md loc = match access_of (s_map s) i with
                               | Some _ => Some (s1, Some BufferInUse)
                               | None => Some (start_access s (s_map s1) md loc i)
                               end.
Proof.
  intros I N. destruct (iv_lists s I) as [A1 A2 A3 A4 A5 A6 [A7 A7'] A8].
  destruct A5 as [A5 A5']. destruct A5' as [A5'|[i [Ei Li]]]; [contradiction|].
  destruct (remove_range (p_links (s_map s)) (p_available (s_map s)) i A3) as [a1 [ls1 [k (K & E1 & Len1 & L1 & H1 & D1 & T1 & Hd1)]]];
    [split; [exact A5|right; eauto]|exact Li|lia|].
  destruct (push_range ls1 a1 i L1 H1) as [a2 [ls2 (E2 & Len2 & L2 & H2 & Hd2 & T2)]]; [lia|lia|exact D1| |].
  { rewrite T1, Hd1. destruct (Z.eqb_spec (next k) nil_index) as [X|X], (Z.eqb_spec (prev k) nil_index) as [Y|Y]; tauto. }
  set (m1 := set_lists (s_map s) ls2 (p_in_use (s_map s)) (p_dirty (s_map s)) a2).
  assert (I1 : inv (with_map s m1)).
  { apply inv_with_lists; [exact I|]. constructor; cbn [set_lists p_links p_buffers p_in_use p_dirty p_available]; auto; try congruence.
    all: rewrite Len2, Len1; assumption. }
  exists i, (with_map s (insert_mapped m1 loc (Z.of_nat i))).
  split; [lia|]. split; [exact Ei|]. split.
  { apply (inv_insert (with_map s m1) loc i I1); [exact N|cbn; lia]. }
  repeat (split; [reflexivity|]). split.
  { intros x. unfold mapped_at. cbn. destruct (loc =? x)%Z; [cbn; now rewrite Nat2Z.id|reflexivity]. }
  unfold buffer_access. rewrite N, Ei.
  replace (Z.of_nat i =? nil_index)%Z with false by (unfold nil_index in *; lia).
  rewrite E1, E2. rewrite Nat2Z.id. fold m1. cbn [with_map s_map].
  change (access_of (insert_mapped m1 loc (Z.of_nat i)) i) with (access_of (s_map s) i).
  destruct (access_of (s_map s) i); reflexivity.
Qed.

Lemma inv_access p s md loc s' r : inv s -> (p = Debug \/ (Z.of_nat (length (s_handles s')) < 2 ^ 32)%Z) ->
  buffer_access p s md loc = Some (s', r) -> inv s'.
Proof.
  intros I Hp E. destruct (mapped_at (s_map s) loc) as [i|] eqn:Mp.
  - unfold buffer_access in E. rewrite Mp in E. destruct (access_of (s_map s) i) as [[l n]|] eqn:Ac.
    + destruct (wadd p 32 n 1) as [n'| |] eqn:W; [|injection E as <- _; exact I..].
      injection E as <- _. cbn [add_handle s_handles] in Hp. rewrite app_length in Hp. cbn [length] in Hp.
      pose proof (iv_count s I i) as D0. rewrite Ac in D0. destruct D0 as (D1 & D2 & D3 & D4 & D5).
      assert (n' = (n + 1)%Z) as ->.
      { unfold wadd in W. destruct (Z.ltb_spec (n + 1) (2 ^ 32)); [congruence|]. pose proof (count_le i (s_handles s)).
        destruct p; [discriminate|]. destruct Hp as [|Hp]; [discriminate|]. lia. }
      pose proof (access_in_range _ _ _ Ac) as Li.
      destruct (set_access_frame (s_map s) i (Some (l, (n + 1)%Z))) as (S1 & S2 & S3 & S4 & S5 & S6 & S7).
      pose proof (set_access_at (s_map s) i (Some (l, (n + 1)%Z)) Li) as S8.
      destruct I as [A B D E F G M Q]. constructor; cbn [add_handle s_map s_pages s_handles s_fresh]; rewrite ?S1, ?S4; auto.
      * eapply lists_ok_ext; eauto.
      * intros j. rewrite S8, count_app, count_cons. cbn [counted h_phase h_index andb]. change (count j []) with 0.
        destruct (Nat.eqb_spec j i) as [->|N].
        -- rewrite Nat.eqb_refl. split; [lia|]. split; [lia|]. split; [exact D3|]. split; [exact D4|].
           intros h X C Y. apply in_app_or in X as [X|[<-|[]]]; [auto|reflexivity].
        -- replace (i =? j) with false by lia. rewrite !Nat.add_0_r. specialize (D j).
           destruct (access_of (s_map s) j) as [[l' c']|]; [|exact D]. destruct D as (E1 & E2 & E3 & E4 & E5).
           repeat (split; [assumption|]). intros h X C Y. apply in_app_or in X as [X|[<-|[]]]; [auto|]. cbn in Y. congruence.
      * intros j j' x c c'. rewrite !S8. destruct (Nat.eqb_spec j i) as [->|N], (Nat.eqb_spec j' i) as [->|N'].
        -- reflexivity.
        -- intros X Y. apply (E i j' x n c'); [congruence|exact Y].
        -- intros X Y. apply (E j i x c n); [exact X|congruence].
        -- eauto.
      * intros h X. rewrite (mapped_at_ext _ _ S3). apply in_app_or in X as [X|[<-|[]]]; [auto|]. cbn. auto.
      * intros x j. rewrite (mapped_at_ext _ _ S3). apply M.
      * apply guards_add; [exact Q|]. now left.
    + injection E as E. assert (s' = fst (start_access s (s_map s) md loc i)) as -> by (rewrite E; reflexivity).
      apply inv_start; auto. destruct s; exact I.
  - destruct (access_unmapped p s md loc I Mp) as [i [s1 (Li & _ & I1 & P1 & H1 & F1 & B1 & _ & M1 & Eb)]]. rewrite Eb in E.
    destruct (access_of (s_map s) i) eqn:Ac.
    + injection E as <- _. exact I1.
    + injection E as E. assert (s' = fst (start_access s (s_map s1) md loc i)) as -> by (rewrite E; reflexivity).
      apply inv_start.
      * replace (with_map s (s_map s1)) with s1; [exact I1|]. destruct s1 as [m1 pg1 hs1 fr1].
        cbn [s_pages s_handles s_fresh] in P1, H1, F1. subst pg1 hs1 fr1. reflexivity.
      * unfold access_of in *. rewrite B1. exact Ac.
      * rewrite M1, Z.eqb_refl. reflexivity.
Qed.

(** ** Release *)

Lemma inv_dirty s i : inv s -> inv (with_map s (set_dirty (s_map s) i)).
Proof.
  intros [A B D E F G M Q]. destruct (set_dirty_frame (s_map s) i) as (S1 & S2 & S3 & S4 & S5 & S6 & S7 & S8).
  constructor; cbn [with_map s_map s_pages s_handles s_fresh]; rewrite ?S1, ?S4; auto.
  - eapply lists_ok_ext; eauto.
  - intros j. rewrite S8. apply D.
  - intros j j' l c c'. rewrite !S8. apply E.
  - intros h I. rewrite (mapped_at_ext _ _ S3). auto.
  - intros x j. rewrite (mapped_at_ext _ _ S3). apply M.
Qed.

Lemma inv_closing s k h m l n :
  inv s -> nth_error (s_handles s) k = Some h -> h_phase h = Open ->
  access_of (s_map s) (h_index h) = Some (l, n) ->
  lists_ok m -> length (p_buffers m) = length (p_buffers (s_map s)) -> p_mapped m = p_mapped (s_map s) ->
  (forall j, j <> h_index h -> access_of m j = access_of (s_map s) j) ->
  ((1 < n)%Z /\ access_of m (h_index h) = Some (l, (n - 1)%Z) /\ p_locks m = p_locks (s_map s) \/
   n = 1%Z /\ access_of m (h_index h) = None /\ p_locks m = l :: p_locks (s_map s)) ->
  inv (set_phase (with_map s m) k h Closing).
Proof.
  intros I K Ph Ac Ls Bl Mp Oth Cs. assert (Lk : k < length (s_handles s)) by (apply nth_error_Some; congruence).
  pose proof (nth_error_In _ _ K) as Kin.
  assert (Cd : counted h = true) by (unfold counted; now rewrite Ph).
  set (i := h_index h) in *. set (hs' := upd (s_handles s) k (with_phase h Closing)).
  assert (Cn : forall j, count j hs' + (if i =? j then 1 else 0) = count j (s_handles s)).
  { intros j. pose proof (count_upd j _ _ _ (with_phase h Closing) K) as X. rewrite Cd in X. cbn in X. unfold hs', i. lia. }
  assert (In_ : forall x, In x hs' ->
                 exists y, In y (s_handles s) /\ h_index x = h_index y /\ h_lock x = h_lock y /\ h_loc x = h_loc y /\
                   (counted x = true -> counted y = true)).
  { intros x X. apply in_upd in X; [|exact Lk]. destruct X as [->|[j [_ J]]].
    - exists h. split; [exact Kin|]. cbn. auto.
    - exists x. split; [eapply nth_error_In; eauto|]. auto. }
  pose proof (iv_count s I i) as Di. rewrite Ac in Di. destruct Di as (D1 & D2 & D3 & D4 & D5).
  pose proof (Cn i) as Ci. rewrite Nat.eqb_refl in Ci.
  pose proof (weaker_guard s k h Closing I K) as Wg.
  destruct I as [A B D E F G M Q]. unfold set_phase.
  constructor; cbn [with_map s_map s_pages s_handles s_fresh]; fold hs'; rewrite ?Bl; auto.
  - intros j. destruct (Nat.eq_dec j i) as [->|N].
    + destruct Cs as [(C1 & -> & C3)|(C1 & -> & C3)]; [|lia].
      split; [lia|]. split; [lia|]. split; [exact D3|]. split; [congruence|].
      intros x X Cx Ix. destruct (In_ x X) as [y (Y1 & Y2 & Y3 & _ & Y5)]. rewrite Y3. apply D5; auto. congruence.
    + rewrite Oth by exact N. specialize (Cn j). replace (i =? j) with false in Cn by lia. rewrite Nat.add_0_r in Cn.
      specialize (D j). destruct (access_of (s_map s) j) as [[l' c']|] eqn:Acj; rewrite Cn; [|exact D].
      destruct D as (E1 & E2 & E3 & E4 & E5). split; [exact E1|]. split; [exact E2|]. split; [exact E3|]. split.
      * destruct Cs as [(_ & _ & ->)|(_ & _ & ->)]; [exact E4|]. intros [X|X]; [|auto].
        apply N. apply (E j i l' c' n); [exact Acj|congruence].
      * intros x X Cx Ix. destruct (In_ x X) as [y (Y1 & Y2 & Y3 & _ & Y5)]. rewrite Y3. apply E5; auto. congruence.
  - intros j j' x c c' X Y.
    assert (T : forall q z d, access_of m q = Some (z, d) -> exists d', access_of (s_map s) q = Some (z, d')).
    { intros q z d H. destruct (Nat.eq_dec q i) as [->|Nq]; [|rewrite Oth in H by exact Nq; eauto].
      destruct Cs as [(_ & C2 & _)|(_ & C2 & _)]; rewrite C2 in H; [|discriminate]. exists n. congruence. }
    destruct (T _ _ _ X) as [d1 X1]. destruct (T _ _ _ Y) as [d2 Y1]. eauto.
  - destruct F as [F1 F2]. destruct Cs as [(_ & _ & ->)|(_ & _ & ->)]; [auto|]. split.
    + constructor; assumption.
    + intros x [<-|X]; auto.
  - intros x X. rewrite (mapped_at_ext _ _ Mp). destruct (In_ x X) as [y (Y1 & Y2 & Y3 & Y4 & _)]. rewrite Y2, Y3, Y4. auto.
  - intros x j. rewrite (mapped_at_ext _ _ Mp). apply M.
  - unfold hs'. apply (guards_upd _ k h); auto. apply Wg. right. left. unfold guard_of. cbn [with_phase h_phase h_mode].
    now rewrite Ph.
Qed.

Lemma move_ok s i l n dirty :
  inv s -> access_of (s_map s) i = Some (l, n) ->
  exists m, move_buffer (s_map s) l i dirty = Ret m /\ lists_ok m /\
    length (p_buffers m) = length (p_buffers (s_map s)) /\ p_mapped m = p_mapped (s_map s) /\
    p_locks m = l :: p_locks (s_map s) /\
    forall j, access_of m j = if j =? i then None else access_of (s_map s) j.
Proof.
  intros I Ac. pose proof (access_in_range _ _ _ Ac) as Li.
  destruct (iv_lists s I) as [A1 A2 A3 A4 A5 A6 A7 A8].
  destruct (set_access_frame (s_map s) i None) as (S1 & S2 & S3 & S4 & S5 & S6 & S7).
  pose proof (set_access_at (s_map s) i None Li) as S8.
  unfold move_buffer. cbn [set_locks p_in_use p_links p_dirty p_available]. rewrite S2, S5, S6, S7.
  assert (Zi : (Z.of_nat i mod 2 ^ 32 = Z.of_nat i)%Z) by (apply Z.mod_small; unfold nil_index in A2; lia). rewrite !Zi.
  destruct (remove_range (p_links (s_map s)) (p_in_use (s_map s)) i A3 A4) as [u1 [ls1 [k (K & E1 & Len1 & L1 & H1 & D1 & _ & _)]]]; [lia|lia|].
  rewrite E1. cbn [bind]. destruct dirty.
  - destruct (push_range ls1 (p_dirty (s_map s)) i L1) as [d [ls2 (E2 & Len2 & L2 & H2 & Hd2 & T2)]];
      [unfold head_ok; rewrite Len1; exact A6|lia|lia|exact D1|exact A8|].
    rewrite E2. cbn [bind]. eexists. split; [reflexivity|]. split; [|split; [exact S1|split; [exact S3|split; [reflexivity|exact S8]]]].
    unfold head_ok in H1, H2. unfold links_ok in L2. rewrite Len2 in H2, L2. rewrite Len1 in H1, H2, L2.
    constructor; cbn [set_lists set_locks p_links p_buffers p_in_use p_dirty p_available]; rewrite ?S1, ?S6, ?S7, ?Len2, ?Len1; auto.
    tauto.
  - destruct (push_range ls1 (p_available (s_map s)) i L1) as [d [ls2 (E2 & Len2 & L2 & H2 & Hd2 & T2)]];
      [unfold head_ok; rewrite Len1; exact A5|lia|lia|exact D1|tauto|].
    rewrite E2. cbn [bind]. eexists. split; [reflexivity|]. split; [|split; [exact S1|split; [exact S3|split; [reflexivity|exact S8]]]].
    unfold head_ok in H1, H2. unfold links_ok in L2. rewrite Len2 in H2, L2. rewrite Len1 in H1, H2, L2.
    constructor; cbn [set_lists set_locks p_links p_buffers p_in_use p_dirty p_available]; rewrite ?S1, ?S6, ?S7, ?Len2, ?Len1; auto.
Qed.

Lemma inv_release s k h : inv s -> nth_error (s_handles s) k = Some h -> h_phase h = Open ->
  exists s', release s k h = (s', None) /\ inv s' /\ s_pages s' = s_pages s /\
    s_handles s' = upd (s_handles s) k (with_phase h Closing).
Proof.
  intros I K Ph. unfold release.
  set (m := match h_mode h with ReadOnly => s_map s | _ => set_dirty (s_map s) (h_index h) end).
  assert (I0 : inv (with_map s m)).
  { unfold m. destruct (h_mode h); [destruct s; exact I|apply inv_dirty; exact I..]. }
  set (s0 := with_map s m) in *. change m with (s_map s0).
  assert (K0 : nth_error (s_handles s0) k = Some h) by exact K.
  assert (Cd : counted h = true) by (unfold counted; now rewrite Ph).
  pose proof (count_pos (h_index h) (s_handles s0) h (nth_error_In _ _ K0) Cd eq_refl) as Cp.
  pose proof (iv_count s0 I0 (h_index h)) as D. destruct (access_of (s_map s0) (h_index h)) as [[l n]|] eqn:Ac; [|lia].
  destruct D as (D1 & D2 & _). replace (0 <? n)%Z with true by lia. cbn [negb].
  pose proof (access_in_range _ _ _ Ac) as Li. destruct (Z.ltb_spec 1 n) as [Hn|Hn].
  - eexists. split; [reflexivity|]. split; [|split; reflexivity].
    destruct (set_access_frame (s_map s0) (h_index h) (Some (l, (n - 1)%Z))) as (S1 & S2 & S3 & S4 & S5 & S6 & S7).
    pose proof (set_access_at (s_map s0) (h_index h) (Some (l, (n - 1)%Z)) Li) as S8.
    change (with_map s (set_access (s_map s0) (h_index h) (Some (l, (n - 1)%Z))))
      with (with_map s0 (set_access (s_map s0) (h_index h) (Some (l, (n - 1)%Z)))).
    eapply inv_closing; eauto.
    + eapply lists_ok_ext; [exact (iv_lists s0 I0)|..]; auto.
    + intros j N. rewrite S8. replace (j =? h_index h) with false by lia. reflexivity.
    + left. rewrite S8, Nat.eqb_refl. auto.
  - destruct (move_ok s0 (h_index h) l n (match nth_error (p_buffers (s_map s0)) (h_index h) with Some b => b_dirty b | None => false end) I0 Ac)
      as [m1 (E & L1 & B1 & M1 & P1 & A1)]. rewrite E.
    eexists. split; [reflexivity|]. split; [|split; reflexivity].
    change (with_map s m1) with (with_map s0 m1). eapply inv_closing; eauto.
    + intros j N. rewrite A1. replace (j =? h_index h) with false by lia. reflexivity.
    + right. rewrite A1, Nat.eqb_refl. split; [lia|]. auto.
Qed.

(** ** All steps *)

Lemma handles_grow p fetch zeros e s s' r : exec p fetch zeros e s = Some (s', r) ->
  length (s_handles s) <= length (s_handles s').
Proof.
  assert (U : forall k h ph, nth_error (s_handles s) k = Some h -> length (upd (s_handles s) k (with_phase h ph)) = length (s_handles s)).
  { intros k h ph K. apply upd_length. apply nth_error_Some. congruence. }
  assert (Sa : forall m md loc i, length (s_handles s) <= length (s_handles (fst (start_access s m md loc i)))).
  { intros. unfold start_access. destruct (alloc_lock m (s_fresh s)) as [[l rest] fr]. destruct (may_write _ l); cbn; rewrite app_length; lia. }
  destruct e as [md loc|k|k|k pg|k|k|k]; cbn [exec].
  - unfold buffer_access. destruct (mapped_at _ loc) as [i|].
    + destruct (access_of _ i) as [[l n]|].
      * destruct (wadd p 32 n 1); intros [= <- _]; cbn; rewrite ?app_length; lia.
      * intros [= E]. specialize (Sa (s_map s) md loc i). rewrite E in Sa. exact Sa.
    + destruct (_ =? nil_index)%Z; [discriminate|]. destruct (list_remove _ _ _) as [[a1 ls1]| |]; [|intros [= <- _]; lia..].
      destruct (list_push_front _ _ _) as [[a2 ls2]| |]; [|intros [= <- _]; cbn; lia..].
      destruct (access_of _ _); [intros [= <- _]; cbn; lia|]. intros [= E].
      specialize (Sa (insert_mapped (set_lists (s_map s) ls2 (p_in_use (s_map s)) (p_dirty (s_map s)) a2) loc (h_tail (p_available (s_map s))))
                     md loc (Z.to_nat (h_tail (p_available (s_map s))))). rewrite E in Sa. exact Sa.
  - destruct (nth_error (s_handles s) k) as [h|] eqn:K; [|discriminate]. destruct (h_phase h); try discriminate.
    intros [= E]. unfold fill in E. destruct (match h_mode h with Initialize => _ | _ => _ end); injection E as <- _; cbn; rewrite U by exact K; lia.
  - destruct (nth_error (s_handles s) k) as [h|] eqn:K; [|discriminate]. destruct (h_phase h); try discriminate.
    destruct (match h_mode h with ReadOnly => _ | _ => _ end); [|discriminate]. intros [= <- _]. cbn. rewrite U by exact K. lia.
  - destruct (nth_error (s_handles s) k) as [h|] eqn:K; [|discriminate]. destruct (h_phase h), (h_mode h); try discriminate;
      destruct (_ =? _); try discriminate; intros [= <- _]; cbn; lia.
  - destruct (nth_error (s_handles s) k) as [h|] eqn:K; [|discriminate]. destruct (h_phase h); try discriminate.
    intros [= E]. unfold release in E.
    destruct (access_of _ _) as [[l n]|]; [|injection E as <- _; lia]. destruct (negb _); [injection E as <- _; lia|].
    destruct (_ <? n)%Z; [injection E as <- _; cbn; rewrite U by exact K; lia|].
    destruct (move_buffer _ _ _ _); injection E as <- _; cbn; rewrite ?U by exact K; lia.
  - destruct (nth_error (s_handles s) k) as [h|] eqn:K; [|discriminate]. destruct (h_phase h); try discriminate.
    intros [= <- _]. cbn. rewrite U by exact K. lia.
  - destruct (nth_error (s_handles s) k) as [h|] eqn:K; [|discriminate]. destruct (h_phase h); try discriminate;
      intros [= <- _]; cbn; rewrite U by exact K; lia.
Qed.

Lemma exec_inv p fetch zeros e s s' r :
  inv s -> p = Debug \/ (Z.of_nat (length (s_handles s')) < 2 ^ 32)%Z ->
  exec p fetch zeros e s = Some (s', r) -> inv s'.
Proof.
  intros I Hp E. destruct e as [md loc|k|k|k pg|k|k|k]; cbn [exec] in E.
  - eapply inv_access; eauto.
  - destruct (nth_error (s_handles s) k) as [h|] eqn:K; [|discriminate]. destruct (h_phase h) eqn:Ph; try discriminate.
    injection E as E. unfold fill in E.
    destruct (iv_handles s I h (nth_error_In _ _ K)) as (Hi & _). rewrite <- (iv_pages s I) in Hi.
    destruct (match h_mode h with Initialize => _ | _ => _ end) as [pg|]; injection E as <- _.
    + apply inv_phase; auto; [unfold counted; rewrite Ph; reflexivity|now apply upd_length|].
      apply weaker_guard; auto. right. right. unfold guard_of. now rewrite Ph.
    + apply inv_phase; auto; [unfold counted; rewrite Ph; reflexivity|]. apply weaker_guard; auto.
  - destruct (nth_error (s_handles s) k) as [h|] eqn:K; [|discriminate]. destruct (h_phase h) eqn:Ph; try discriminate.
    destruct (match h_mode h with ReadOnly => _ | _ => _ end) eqn:Fr; [|discriminate]. injection E as <- _.
    apply inv_phase; auto; [unfold counted; rewrite Ph; reflexivity|].
    intros k2 h2 N K2 L. pose proof (nth_error_In _ _ K2) as I2. unfold guard_of at 1 4. cbn [with_phase h_phase h_mode].
    destruct (h_mode h).
    + pose proof (proj1 (may_read_spec _ _) Fr h2 I2 L). split; [discriminate|intros; contradiction].
    + pose proof (proj1 (may_write_spec _ _) Fr h2 I2 L) as X. rewrite X. split; [auto|discriminate].
    + pose proof (proj1 (may_write_spec _ _) Fr h2 I2 L) as X. rewrite X. split; [auto|discriminate].
  - destruct (nth_error (s_handles s) k) as [h|] eqn:K; [|discriminate].
    destruct (iv_handles s I h (nth_error_In _ _ K)) as (Hi & _). rewrite <- (iv_pages s I) in Hi.
    assert (J : inv {| s_map := s_map s; s_pages := upd (s_pages s) (h_index h) pg; s_handles := s_handles s; s_fresh := s_fresh s |}).
    { destruct I as [A B D E' F G M Q]. constructor; cbn [s_map s_pages s_handles s_fresh]; auto. rewrite upd_length; auto. }
    destruct (h_phase h), (h_mode h); try discriminate; destruct (length pg =? length zeros); try discriminate;
      injection E as <- _; exact J.
  - destruct (nth_error (s_handles s) k) as [h|] eqn:K; [|discriminate]. destruct (h_phase h) eqn:Ph; try discriminate.
    injection E as E. destruct (inv_release s k h I K Ph) as [s1 (E1 & I1 & _)]. rewrite E1 in E. injection E as <- _. exact I1.
  - destruct (nth_error (s_handles s) k) as [h|] eqn:K; [|discriminate]. destruct (h_phase h) eqn:Ph; try discriminate.
    injection E as <- _. apply inv_phase; auto; [unfold counted; rewrite Ph; reflexivity|]. apply weaker_guard; auto.
  - destruct (nth_error (s_handles s) k) as [h|] eqn:K; [|discriminate]. destruct (h_phase h) eqn:Ph; try discriminate;
      injection E as <- _; (apply inv_phase; auto; [unfold counted; rewrite Ph; reflexivity|]; apply weaker_guard; auto).
Qed.

Lemma run_grow p fetch zeros es : forall s s' rs, run p fetch zeros es s = Some (s', rs) ->
  length (s_handles s) <= length (s_handles s').
Proof.
  induction es as [|e es IH]; intros s s' rs; cbn [run].
  - intros [= <- _]. lia.
  - destruct (exec p fetch zeros e s) as [[s1 r]|] eqn:E; [|discriminate].
    destruct (run p fetch zeros es s1) as [[s2 rs']|] eqn:R; [|discriminate]. intros [= <- _].
    pose proof (handles_grow _ _ _ _ _ _ _ E). pose proof (IH _ _ _ R). lia.
Qed.

Lemma run_inv p fetch zeros es : forall s s' rs,
  inv s -> p = Debug \/ (Z.of_nat (length (s_handles s')) < 2 ^ 32)%Z ->
  run p fetch zeros es s = Some (s', rs) -> inv s'.
Proof.
  induction es as [|e es IH]; intros s s' rs I Hp; cbn [run].
  - intros [= <- _]. exact I.
  - destruct (exec p fetch zeros e s) as [[s1 r]|] eqn:E; [|discriminate].
    destruct (run p fetch zeros es s1) as [[s2 rs']|] eqn:R; [|discriminate]. intros [= <- _].
    pose proof (run_grow _ _ _ _ _ _ _ R) as G. apply (IH s1 s2 rs'); auto.
    apply (exec_inv p fetch zeros e s s1 r); auto. destruct Hp as [Hp|Hp]; [now left|right; lia].
Qed.

(** ** The start *)

Lemma follows_range f ls s l : follows f ls s l -> s = nil_index \/ exists x, s = Z.of_nat x /\ x < length ls.
Proof.
  destruct l as [|x l]; cbn; [auto|]. intros [-> [k [K _]]]. right. exists x. split; [reflexivity|].
  apply nth_error_Some. congruence.
Qed.

Lemma inv_start_state map_anon bs n m bytes pages :
  pool_new Release map_anon bs n = Ret (Ok (m, bytes)) -> length pages = length (p_buffers m) -> inv (start m pages).
Proof.
  intros E Hp.
  assert (Arg : is_pow2 bs = true /\ (0 < n < nil_index)%Z /\ map_anon ((bs * n) mod 2 ^ 64)%Z = true).
  { unfold pool_new in E. destruct (negb (bs =? 0)%Z) eqn:B0; [|discriminate]. destruct (negb (n =? 0)%Z) eqn:N0; [|discriminate].
    destruct (is_pow2 bs) eqn:Pw; [|discriminate]. destruct (n <? nil_index)%Z eqn:Nn; [|discriminate].
    assert (Np : (0 < n)%Z).
    { destruct (Z.lt_trichotomy n 0) as [X|[X|X]]; [|lia|exact X]. exfalso.
      destruct (wmul Release 64 bs n) as [q| |]; cbn [bind] in E; try discriminate.
      destruct (negb (map_anon q)); [discriminate|]. replace (Z.to_nat n) with 0%nat in E by lia. cbn [seq foldM repeat bind] in E.
      unfold set_prev, get in E. change (nth_error (@nil link) (Z.to_nat 0)) with (@None link) in E. discriminate. }
    split; [reflexivity|]. split; [lia|].
    assert (W : wmul Release 64 bs n = Ret ((bs * n) mod 2 ^ 64)%Z).
    { unfold wmul. destruct (Z.ltb_spec (bs * n) (2 ^ 64)) as [X|X]; [|reflexivity]. f_equal. symmetry. apply Z.mod_small.
      apply is_pow2_true in Pw as [k [Hk ->]]. pose proof (Z.pow_pos_nonneg 2 k ltac:(lia) ltac:(lia)). nia. }
    rewrite W in E. cbn [bind] in E. destruct (map_anon _); [reflexivity|discriminate]. }
  destruct Arg as (A1 & A2 & A3). destruct (pool_release map_anon bs n A1 A2 A3) as [m' (E' & R & L & B & Mp & Lk)].
  assert (m' = m) as -> by congruence. clear E E'. destruct R as [F [ND [Det Hn]]].
  inversion F as [|? ? ? ? [T1 T1'] F1 Eh]; subst. inversion F1 as [|? ? ? ? T2 F2]; subst. inversion F2 as [|? ? ? ? T3 F3]; subst.
  assert (Bl : length (p_buffers m) = Z.to_nat n) by (rewrite B; apply repeat_length).
  assert (Acc : forall i, access_of m i = None).
  { intros i. unfold access_of. rewrite B. destruct (nth_error (repeat buffer_default (Z.to_nat n)) i) eqn:X; [|reflexivity].
    apply nth_error_In, repeat_spec in X. now subst. }
  assert (NoM : forall loc, mapped_at m loc = None) by (intros; unfold mapped_at; now rewrite Mp).
  assert (NilR : forall q, in_range q nil_index) by (intros; now left).
  destruct (Z.to_nat n) as [|w] eqn:W; [lia|].
  constructor; cbn [start s_map s_pages s_handles s_fresh].
  - constructor; try lia.
    + intros k K. apply In_nth_error in K as [x X]. assert (Lx : x < length (p_links m)) by (apply nth_error_Some; congruence).
      assert (Ix : In x (seq 0 (S w))) by (apply in_seq; lia).
      assert (Th : threads (p_links m) (p_available m) (seq 0 (S w))) by (split; assumption).
      apply threads_linked in Th as [_ [_ Lnk]]. apply in_split in Ix as [l1 [l2 Es]].
      pose proof (Lnk _ _ _ Es) as N. rewrite X in N. injection N as ->. cbn [prev next].
      destruct (seq_split _ _ _ _ _ Es) as (_ & _ & -> & ->).
      rewrite first_seq. replace (x - 0) with x by lia. rewrite first_rev_seq. unfold in_range. split.
      * destruct (Nat.eqb_spec x 0); [now left|right]. exists (x - 1). lia.
      * destruct (0 + S w - S x) eqn:Y; [now left|right]. exists (S x). lia.
    + destruct T2 as [X Y]. cbn in X, Y. rewrite X, Y. auto.
    + split; eapply follows_range; eauto.
    + destruct T3 as [X Y]. cbn in X, Y. rewrite X, Y. auto.
    + split.
      * cbn in T1. destruct T1 as [-> _]. unfold nil_index. lia.
      * rewrite seq_S, rev_app_distr in T1'. cbn in T1'. destruct T1' as [-> _]. unfold nil_index in *. lia.
    + destruct T3 as [X Y]. cbn in X, Y. rewrite X, Y. tauto.
  - exact Hp.
  - intros i. rewrite Acc. reflexivity.
  - intros i j l c c'. rewrite Acc. discriminate.
  - rewrite Lk. split; [apply NoDup_nil|intros l []].
  - intros h [].
  - intros loc i. rewrite NoM. discriminate.
  - intros [|k1]; discriminate.
Qed.
